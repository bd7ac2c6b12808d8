(** Property theorems C09 - C12 and C59 (symbol scoping, generated and macro label names). *)

Require Import ZArith List String Ascii Bool Lia.
Require Import Verif.LexModel Verif.SymModel Verif.SymSpec Verif.SymIface Verif.SymProofs Verif.SymNameProofs.
Import ListNotations.
Local Open Scope string_scope.

(** *** C09: scoping *)

(** After every history of references, definitions, equs, generated labels and clears, every lookup
    of every name shows exactly the state that the name's own symbol reached in that history:
    [sym_history] looks only at the actions on the same symbol (case-insensitive spelling; same file
    for @names; same section for @@names). *)
Theorem C09_scoping : forall h r, symbol_name (r_name r) ->
  (exists s, sym_history r h s) /\
  (forall s, sym_history r h s -> shows (run_actions empty_table h) r s).
Proof. exact scoping. Qed.
Print Assumptions C09_scoping.

(** Only the documented names are symbols; other names find nothing and change nothing. *)
Theorem C09_names : forall r, no_nul (r_name r) -> ~ symbol_name (r_name r) -> forall t,
  symbol_exists t (r_name r) (r_file r) (r_section r) = false /\ read_label t r = None
  /\ act t (Reference r) = t /\ (forall v, act t (Define r v) = t) /\ (forall i, act t (DefineEqu r i) = t).
Proof.
  intros r Hn Hs t. apply invalid_names. destruct (valid_name (r_name r)) eqn:E; [|reflexivity].
  exfalso. apply Hs, valid_name_iff. auto.
Qed.
Print Assumptions C09_names.

(** Predefined labels (command line or API) go through the same definitions. *)
Theorem C09_predefined : forall defs t file section, exists h,
  ~ In Clear h /\ fst (add_labels t file section defs) = run_actions t h.
Proof. exact add_labels_actions. Qed.
Print Assumptions C09_predefined.

Definition ex_h : list action :=
  [Define (mkRef "Main" 0 1) 100; Define (mkRef "@loop" 0 1) 4; Define (mkRef "@loop" 1 2) 8;
   Define (mkRef "@@x" 0 1) 12; DefineEqu (mkRef "size" 0 1) 3; Reference (mkRef "@@x" 1 2)].
Example C09_ex_names : symbol_name "@@x" /\ symbol_name "@loop" /\ symbol_name "MAIN" /\ ~ symbol_name "1x"
  /\ no_nul "1x".
Proof.
  repeat split; try (apply valid_name_iff; split; [reflexivity|cbn; intuition discriminate]);
    try discriminate.
  intros H. apply valid_name_iff in H. destruct H. discriminate.
Qed.
Example C09_ex_shows :
  let t := run_actions empty_table ex_h in
  read_label t (mkRef "MAIN" 7 9) = Some (100%Z, true) /\
  read_label t (mkRef "@LOOP" 0 9) = Some (4%Z, true) /\
  read_label t (mkRef "@loop" 1 9) = Some (8%Z, true) /\
  read_label t (mkRef "@loop" 2 9) = Some (0%Z, false) /\
  read_label t (mkRef "@@x" 5 1) = Some (12%Z, true) /\
  read_label t (mkRef "@@x" 5 2) = Some (0%Z, false) /\
  find_equation t "SIZE" 8 8 = Some 3%nat /\ read_label t (mkRef "size" 0 1) = None.
Proof. vm_compute. repeat split. Qed.

(** *** C10: a name is a label or an equ *)

(** Once a symbol is a label no reference to it ever finds an equ; once it is an equ every reference
    to it finds that equ, with the same replacement, and never a label. *)
Theorem C10_label_or_equ : forall h1 h2 r r' i,
  ~ In Clear h2 -> same_symbol r r' ->
  let t1 := run_actions empty_table h1 in
  (object t1 r = Some i ->
   forall k, find_equation (run_actions t1 (Reference r :: h2)) (r_name r') (r_file r') (r_section r') <> Some k) /\
  (find_equation t1 (r_name r) (r_file r) (r_section r) = Some i ->
   find_equation (run_actions t1 h2) (r_name r') (r_file r') (r_section r') = Some i
   /\ object (run_actions t1 h2) r' = None).
Proof. exact label_never_equ. Qed.
Print Assumptions C10_label_or_equ.

(** Two lookups, with anything but a clear in between, give the same label object exactly when they
    name the same symbol. *)
Theorem C10_same_object : forall h1 h2 r1 r2 i j,
  let t1 := run_actions empty_table h1 in
  let t2 := run_actions (act t1 (Reference r1)) h2 in
  ~ In Clear h2 -> object t1 r1 = Some i -> object t2 r2 = Some j ->
  (i = j <-> same_symbol r1 r2).
Proof. exact object_identity. Qed.
Print Assumptions C10_same_object.

Example C10_ex :
  let t := run_actions empty_table ex_h in
  object t (mkRef "main" 3 3) = Some 0%nat /\ object t (mkRef "@@X" 0 2) = Some 4%nat /\
  find_equation t "Size" 0 0 = Some 3%nat /\ same_symbol (mkRef "size" 0 0) (mkRef "SiZe" 4 5) /\
  ~ In Clear [Define (mkRef "size" 0 0) 3%Z].
Proof.
  cbv zeta. repeat split; try reflexivity.
  - apply lower_string_same. reflexivity.
  - intros [H|[]]; discriminate H.
Qed.

(** *** C11: generated names *)

Theorem C11_generated_distinct : forall h i j a b,
  ~ In Clear h -> (N.of_nat (List.length (generated_names empty_table h)) <= 2 ^ 64)%N ->
  nth_error (generated_names empty_table h) i = Some a ->
  nth_error (generated_names empty_table h) j = Some b ->
  i <> j -> ~ same_spelling a b.
Proof. exact generated_distinct. Qed.
Print Assumptions C11_generated_distinct.

Example C11_ex :
  let h := [Generate false; Reference (mkRef "a" 0 0); Generate true] in
  ~ In Clear h /\ (N.of_nat (List.length (generated_names empty_table h)) <= 2 ^ 64)%N /\
  generated_names empty_table h = ["__armips_label_00000000__"; "@@__armips_label_00000001__"].
Proof.
  cbv zeta. repeat split.
  - intros [H|[H|[H|[]]]]; discriminate.
  - cbn; lia.
Qed.

(** *** C59: a generated name can be the name of a label the user wrote *)

Theorem C59_generated_clash_refuted : exists h1 h2 r n v,
  ~ In Clear (h1 ++ h2) /\ symbol_name (r_name r) /\
  In (Define r v) h1 /\ In n (generated_names (run_actions empty_table h1) h2) /\
  same_symbol r (mkRef n (-1) (-1)) /\
  read_label (run_actions empty_table (h1 ++ h2)) (mkRef n (-1) (-1)) = Some (v, true).
Proof.
  exists [Define (mkRef "__armips_label_00000000__" 0 1) 42%Z], [Generate false],
         (mkRef "__armips_label_00000000__" 0 1), "__armips_label_00000000__", 42%Z.
  repeat split.
  - intros [H|[H|[]]]; discriminate.
  - apply valid_name_iff. split; [reflexivity|]. cbn. intuition discriminate.
  - left. reflexivity.
  - left. reflexivity.
  - apply lower_string_same. reflexivity.
Qed.
Print Assumptions C59_generated_clash_refuted.

(** *** C12: labels of macro expansions *)

(** Two macro labels become the same symbol only when they are the same label of the same expansion
    of the same macro, provided the macros are the same one, or neither macro name contains _ or @.
    Missing from the full claim: macro names with an underscore (refuted below). *)
Theorem C12_macro_labels_partial : forall m1 l1 c1 m2 l2 c2 f1 s1 f2 s2,
  (c1 < 2 ^ 64)%N -> (c2 < 2 ^ 64)%N ->
  same_spelling m1 m2 \/ (plain_macro m1 /\ plain_macro m2) ->
  same_symbol (mkRef (macro_label_name m1 l1 c1) f1 s1) (mkRef (macro_label_name m2 l2 c2) f2 s2) ->
  same_spelling m1 m2 /\ same_spelling l1 l2 /\ c1 = c2.
Proof.
  intros m1 l1 c1 m2 l2 c2 f1 s1 f2 s2 H1 H2 Hm [H _]. eapply macro_labels_distinct; eassumption.
Qed.
Print Assumptions C12_macro_labels_partial.

Example C12_ex : plain_macro "copy" /\ plain_macro "Fill" /\
  macro_label_name "copy" "@@Loop" 18 = "@@copy_loop_00000012" /\
  same_symbol (mkRef (macro_label_name "copy" "@@Loop" 18) 0 3) (mkRef (macro_label_name "Copy" "@@loop" 18) 1 3).
Proof.
  unfold plain_macro. repeat split; try (cbn; intuition discriminate).
  apply lower_string_same. reflexivity.
Qed.

Theorem C12_macro_labels_refuted : exists m1 l1 m2 l2,
  symbol_name m1 /\ symbol_name l1 /\ symbol_name m2 /\ symbol_name l2 /\
  ~ same_spelling m1 m2 /\
  same_symbol (mkRef (macro_label_name m1 l1 0) 0 0) (mkRef (macro_label_name m2 l2 0) 0 0).
Proof.
  exists "copy", "word_loop", "copy_word", "loop".
  repeat split; try (apply valid_name_iff; split; [reflexivity|cbn; intuition discriminate]).
  - rewrite <- lower_string_same. discriminate.
  - apply lower_string_same. reflexivity.
Qed.
Print Assumptions C12_macro_labels_refuted.
