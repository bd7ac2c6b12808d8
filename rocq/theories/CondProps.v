(** Properties of conditional assembly: C15, C71, C72. *)

Require Import ZArith List Bool.
From Verif Require Import CondModel CondSpec CondProofs.
Import ListNotations.

(** ** C15: the first true branch at every level, balanced bookkeeping *)

(** Reading any text comes to an end. *)
Theorem C15_total : forall (env cmd cond : Type) (e : env) (l : list (stmt env cmd cond)), exists os p, parse e l = Some (os, p).
Proof. intros env cmd cond. exact (parse_total env cmd cond). Qed.
(** The condition stack is as before after every sequence, command and conditional, whatever the text and with or without errors. *)
Theorem C15_balanced : forall (env cmd cond : Type) fuel (p p' : pstate env cmd cond),
  (forall t os, parse_seq fuel t p = Some (os, p') -> p_stack p' = p_stack p) /\
  (forall x o, parse_command fuel x p = Some (o, p') -> p_stack p' = p_stack p) /\
  (forall c o, parse_cond fuel c p = Some (o, p') -> p_stack p' = p_stack p).
Proof.
  intros env cmd cond fuel p p'. destruct (balanced env cmd cond fuel) as (A & B & C).
  split; [intros t os H; exact (proj1 (A _ _ _ _ H))|]. split; [intros x o H; exact (proj1 (B _ _ _ _ H))|intros c o H; exact (proj1 (C _ _ _ _ H))].
Qed.
(** Of accepted text, what is assembled is what [select] says, however the conditions not known while parsing turn out. *)
Theorem C15_select : forall (env cmd cond : Type) (b : block env cmd cond) e os p,
  all (fun _ => True) spoken b -> parse e (text b) = Some (os, p) -> p_err p = false ->
  forall rho, select rho false e b = (p_env p, flat_map (events rho) os).
Proof. intros env cmd cond b e os p A H B rho. exact (proj1 (parse_select env cmd cond b e os p A H B rho)). Qed.
(** If no statement leaves a trace where it is not assembled, this is what the branches taken say alone. *)
Theorem C15_select_plain : forall (env cmd cond : Type) (b : block env cmd cond) e os p,
  all traceless spoken b -> parse e (text b) = Some (os, p) -> p_err p = false ->
  forall rho, plain rho false e b = (p_env p, flat_map (events rho) os).
Proof.
  intros env cmd cond b e os p A H B rho. apply (parse_select env cmd cond b e os p); [|exact H|exact B|].
  - exact (proj1 (all_weaken env cmd cond _ _ _ _ (fun _ _ => Logic.I) (fun _ x => x)) b A).
  - exact (proj1 (all_weaken env cmd cond _ _ _ _ (fun _ x => x) (fun _ _ => Logic.I)) b A).
Qed.
(** Reading within other text depends on the innermost condition only, so that inclusions and macros are statements. *)
Theorem C15_context : forall (env cmd cond : Type) fuel t (p : pstate env cmd cond) s, hd (mkInfo false false) s = top p ->
  parse_seq fuel t (mkP s (p_env p) (p_rest p) (p_err p)) =
  match parse_seq fuel t p with Some (os, p') => Some (os, mkP s (p_env p') (p_rest p') (p_err p')) | None => None end.
Proof. intros env cmd cond fuel. exact (proj1 (context env cmd cond fuel)). Qed.

(** A case: conditions on constants, equs and labels; nested; with an inclusion and an area *)
Definition start : settings := mkSet [] [] [] 1 false false false false false.
Definition one (n : nat) : block settings code nat := BOther (do_instr n) BNil.
Definition ex : block settings code nat :=
  BOther (do_equ 7 0) (BIf (if_equ 7) (one 1) (LElif (if_const true) (BIf (if_label 5) (one 2) (LElif (if_const false) (one 3) (LElse (one 4))) BNil) (LElse (BOther (do_equ 7 1) BNil)))
   (BOpen 1 (BIf (if_const false) (BOther (do_macro 1) (one 5)) LEnd (one 6)) (BOther (do_include (text (BIf (if_equ 7) (one 7) (LElse (one 8)) BNil))) (BOther (do_macro 1) BNil)))).
Example C15_ex : all traceless spoken ex /\ exists os p, parse start (text ex) = Some (os, p) /\ p_err p = false /\ s_macros (p_env p) = [1] /\
  flat_map (events (fun _ => true)) os = [ECmd (Instr 2 1 false); EOpen 1; ECmd (Instr 6 1 false); EClose 1; ECmd (Instr 8 1 false)] /\
  flat_map (events (fun _ => false)) os = [ECmd (Instr 4 1 false); EOpen 1; ECmd (Instr 6 1 false); EClose 1; ECmd (Instr 8 1 false)].
Proof.
  assert (Sp : spoken (if_equ 7) /\ (forall b, spoken (if_const b)) /\ forall k, spoken (if_label k)).
  { repeat split; try discriminate. intros i e. unfold if_equ. destruct (find _ _) as [[? ?]|]; discriminate. }
  destruct Sp as (S1 & S2 & S3). split.
  - unfold ex, one. cbn [all all_tail]. repeat split; auto using equ_traceless, macro_traceless, instr_traceless.
    apply include_traceless. cbn [all all_tail]. repeat split; auto using instr_traceless.
  - eexists _, _. split; [vm_compute; reflexivity|]. repeat split.
Qed.

(** ** C71: what is not taken leaves no trace *)

(** The state after an accepted program, and what it assembles, does not depend on what is in a branch that is known to be false, when no
    statement there leaves a trace.  Missing: the directives below. *)
Theorem C71_no_trace_partial : forall (env cmd cond : Type) (b1 b2 : block env cmd cond) e os1 p1 os2 p2 rho,
  all traceless spoken b1 -> all traceless spoken b2 -> plain rho false e b1 = plain rho false e b2 ->
  parse e (text b1) = Some (os1, p1) -> p_err p1 = false -> parse e (text b2) = Some (os2, p2) -> p_err p2 = false ->
  p_env p1 = p_env p2 /\ flat_map (events rho) os1 = flat_map (events rho) os2.
Proof.
  intros env cmd cond b1 b2 e os1 p1 os2 p2 rho A1 A2 Eq H1 B1 H2 B2. pose proof (C15_select_plain env cmd cond b1 e os1 p1 A1 H1 B1 rho) as P1.
  pose proof (C15_select_plain env cmd cond b2 e os2 p2 A2 H2 B2 rho) as P2. rewrite Eq, P2 in P1. split; congruence.
Qed.
(** Definitions, instructions and inclusions of such text leave no trace. *)
Theorem C71_definitions : (forall n v, traceless (do_equ n v)) /\ (forall n, traceless (do_macro n)) /\ (forall n, traceless (do_func n)) /\
  (forall n, traceless (do_instr n)) /\ (forall b, all traceless spoken b -> traceless (do_include (text b))).
Proof. exact (conj equ_traceless (conj macro_traceless (conj func_traceless (conj instr_traceless include_traceless)))). Qed.
(** .thumb in a branch that is known to be false: the instruction after it is read in Thumb mode, and no switch is assembled. *)
Theorem C71_mode_refuted : exists os p,
  parse start (text (BIf (if_const false) (BOther (do_thumb true) BNil) LEnd (one 1))) = Some (os, p) /\ p_err p = false /\
  forall rho, flat_map (events rho) os = [ECmd (Instr 1 1 true)] /\ snd (plain rho false start (BIf (if_const false) (BOther (do_thumb true) BNil) LEnd (one 1))) = [ECmd (Instr 1 1 false)].
Proof. eexists _, _. split; [vm_compute; reflexivity|]. repeat split. Qed.
(** Likewise the architecture and the other settings. *)
Theorem C71_settings_refuted : exists os p,
  parse start (text (BIf (if_const false) (BOther (do_arch 2 false) (BOther (do_nocash true) (BOther (do_relative true) (BOther (do_strict true) (BOther do_fixdelay BNil))))) LEnd BNil)) = Some (os, p) /\
  p_err p = false /\ p_env p = mkSet [] [] [] 2 false true true true true.
Proof. eexists _, _. split; [vm_compute; reflexivity|]. repeat split. Qed.
(** A macro definition in a branch known to be false is an error if a condition with labels is between. *)
Theorem C71_error_refuted : exists os p,
  parse start (text (BIf (if_const false) (BIf (if_label 5) (BOther (do_macro 1) BNil) LEnd BNil) LEnd BNil)) = Some (os, p) /\ p_err p = true.
Proof. eexists _, _. split; [vm_compute; reflexivity|reflexivity]. Qed.

(** A case of C71_no_trace_partial: two false branches *)
Example C71_ex : let b1 := BIf (if_const false) (BOther (do_equ 7 1) (one 1)) (LElse (one 2)) BNil in let b2 := BIf (if_const false) (BOther (do_macro 3) BNil) (LElse (one 2)) BNil in
  all traceless spoken b1 /\ all traceless spoken b2 /\ (forall rho, plain rho false start b1 = plain rho false start b2) /\
  (exists os p, parse start (text b1) = Some (os, p) /\ p_err p = false) /\ exists os p, parse start (text b2) = Some (os, p) /\ p_err p = false.
Proof.
  assert (S2 : forall b, spoken (if_const b)) by (intros b i e; discriminate). intros b1 b2.
  split; [unfold b1, one; cbn [all all_tail]; repeat split; auto using equ_traceless, instr_traceless|].
  split; [unfold b2, one; cbn [all all_tail]; repeat split; auto using macro_traceless, instr_traceless|]. split; [reflexivity|].
  split; eexists _, _; (split; [vm_compute; reflexivity|reflexivity]).
Qed.

(** ** C72: every conditional is closed *)

(** Accepted text is well nested, unless a condition fails without a message. *)
Theorem C72_closed_partial : forall (env cmd cond : Type) (e : env) (l : list (stmt env cmd cond)) os p,
  Forall (says spoken) l -> parse e l = Some (os, p) -> p_err p = false -> exists b, l = text b.
Proof. intros env cmd cond. exact (accepted_nested env cmd cond). Qed.
(** .elseifdef without a name does: the text ends within the conditional, without an error. *)
Theorem C72_closed_refuted : exists os p,
  parse start [TIf (if_label 5); TOther (do_instr 1); TElseif if_nothing; TOther (do_instr 2)] = Some (os, p) /\ p_err p = false /\
  (forall b, [TIf (if_label 5); TOther (do_instr 1); TElseif if_nothing; TOther (do_instr 2)] <> text b) /\
  flat_map (events (fun _ => false)) os = [ECmd (Instr 2 1 false)].
Proof.
  eexists _, _. split; [vm_compute; reflexivity|]. split; [reflexivity|]. split; [|reflexivity]. exact (unclosed settings code nat _ _ _ _).
Qed.
Example C72_ex : Forall (says spoken) (text ex) /\ exists os p, parse start (text ex) = Some (os, p) /\ p_err p = false.
Proof.
  split.
  - assert (S1 : spoken (if_equ 7)). { intros i e. unfold if_equ. destruct (find _ _) as [[? ?]|]; discriminate. }
    unfold ex, one. cbn [text text_tail app]. repeat constructor; try exact S1; intros i e; discriminate.
  - eexists _, _. split; [vm_compute; reflexivity|reflexivity].
Qed.

Print Assumptions C15_total.
Print Assumptions C15_balanced.
Print Assumptions C15_select.
Print Assumptions C15_select_plain.
Print Assumptions C15_context.
Print Assumptions C71_no_trace_partial.
Print Assumptions C71_definitions.
Print Assumptions C71_mode_refuted.
Print Assumptions C71_settings_refuted.
Print Assumptions C71_error_refuted.
Print Assumptions C72_closed_partial.
Print Assumptions C72_closed_refuted.
