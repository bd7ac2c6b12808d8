(** Property theorems: C101 (values put into the built-in code templates). *)

Require Import ZArith String Ascii List Bool Lia.
From Verif Require Import ExprModel LexModel TplModel TplSpec TplProofs.
Import ListNotations.
Local Open Scope string_scope.
Local Open Scope list_scope.

(** Every template is a text with gaps: the pieces give back the text. *)
Theorem C101_read : forall t names, In (t, names) templates -> written (pieces (text t)) = text t.
Proof. intros t names I. apply (proj1 (proj2 (checked_in t names I))). Qed.
Example C101_read_ex : In (templateLiFloat, templateLiFloat_vars) templates /\
  map (fun p => match p with Gap n => n | Lit _ => [] end) (pieces (text templateLiFloat)) = [[]; text "imm"; []; text "rs"; []].
Proof. split; [right; left; reflexivity | vm_compute; reflexivity]. Qed.

(** Full statement: for all values the text that is parsed is the template with every gap filled with its
    value.  Proved for values that have nothing that looks like a gap.  [label] is the name of the label
    before a macro. *)
Theorem C101_insert_partial : forall t names values, In (t, names) templates -> Forall quiet values ->
  parseTemplate (text t) (combine (map percent (map text names)) values) = filled (map text names) values (pieces (text t)).
Proof. exact template_filled. Qed.
Theorem C101_macro_partial : forall t names values label, In (t, names) templates -> Forall quiet values -> no_percent label = true ->
  parseTemplate (preprocessMacro label (text t)) (combine (map percent (map text names)) values) =
  label ++ text ": " ++ filled (map text names) values (pieces (text t)).
Proof. exact macro_filled. Qed.
(** A modulo operator in the value does no harm. *)
Example C101_insert_ex : Forall quiet [text "(7 % 4)"; text "f2"] /\
  parseTemplate (preprocessMacro (text "@@l") (text templateLiFloat)) (combine (map percent (map text templateLiFloat_vars)) [text "(7 % 4)"; text "f2"]) =
  text "@@l: 
		li 		r1,float((7 % 4))
		mtc1	r1,f2
	".
Proof.
  split; [|vm_compute; reflexivity]. constructor; [|constructor; [apply quiet_free; reflexivity | constructor]].
  apply (expr_quiet (mkHost (fun _ => "") (fun _ => "") (fun _ _ => None) (fun _ _ => None) (fun _ _ => None)) (EBin BMod (EInt 7) (EInt 4)) _ []).
  - split; exact I.
  - reflexivity.
Qed.

(** The texts of expressions are such values, if the names, numbers and strings in them are: operators and
    parentheses never make a gap, also not the modulo operator. *)
Theorem C101_expression : forall h e t ms, atoms_quiet h e -> to_text h e = OVal t ms -> quiet (text t).
Proof. exact expr_quiet. Qed.
Example C101_expression_ex : exists t ms,
  to_text (mkHost (fun _ => "") (fun _ => "") (fun _ _ => None) (fun _ _ => None) (fun _ _ => None))
    (EBin BMod (EBin BMod (EIdent "imm" 0 0) (EInt 8)) (EStr "50%")) = OVal t ms /\ t = "((imm % 8) % ""50%"")".
Proof. eexists; eexists; split; reflexivity. Qed.

(** Full statement: every gap gets a value.  Proved for all templates but one. *)
Theorem C101_gaps_partial : forall t names n, In (t, names) templates -> t <> ctorTemplate -> In (Gap n) (pieces (text t)) -> In n (map text names).
Proof. exact known_in. Qed.
Example C101_gaps_ex : In (msgTemplate, msgTemplate_vars) templates /\ msgTemplate <> ctorTemplate /\
  In (Gap (text "alignment")) (pieces (text msgTemplate)).
Proof.
  split; [|split].
  - unfold templates. repeat ((left; reflexivity) || right).
  - intros E. apply (f_equal String.length) in E. vm_compute in E. discriminate E.
  - vm_compute. tauto.
Qed.

(** The constructor function for ARM has a gap whose name is misspelled. *)
Theorem C101_gaps_refuted : exists n, In (Gap n) (pieces (text ctorTemplate)) /\ ~ In n (map text ctorTemplate_vars).
Proof.
  exists (text "innerLooplabel"). split; [vm_compute; tauto|]. intros H. vm_compute in H.
  repeat (destruct H as [H|H]; [discriminate H|]). exact H.
Qed.

(** A text that has the name of another gap is changed: .msg "%alignment%" prints 4. *)
Theorem C101_insert_refuted : exists values, length values = length msgTemplate_vars /\
  parseTemplate (text msgTemplate) (combine (map percent (map text msgTemplate_vars)) values) <>
  filled (map text msgTemplate_vars) values (pieces (text msgTemplate)).
Proof.
  exists [text "@@after"; text """%alignment%"""; text "4"]. split; [reflexivity|]. intros E. apply (f_equal (@length ascii)) in E.
  vm_compute in E. discriminate E.
Qed.

Print Assumptions C101_read.
Print Assumptions C101_insert_partial.
Print Assumptions C101_macro_partial.
Print Assumptions C101_expression.
Print Assumptions C101_gaps_partial.
Print Assumptions C101_gaps_refuted.
Print Assumptions C101_insert_refuted.
