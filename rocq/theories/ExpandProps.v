(** Property theorems C13, C14 (equ and macro argument replacement). *)

Require Import ZArith List String Ascii Bool Lia.
Require Import Verif.LexModel Verif.ParseModel Verif.SymModel Verif.SymSpec Verif.SymIface Verif.SymProofs.
Require Import Verif.ExpandModel Verif.ExpandSpec Verif.ExpandProofs Verif.ExpandIface Verif.ExpandHistProofs.
Import ListNotations.
Local Open Scope string_scope.

(** *** C13: equ replacement *)

(** For every history of equ declarations in source order, reading any tokens finishes, delivers
    exactly their full expansion, and delivers no name of a visible equ except one that is being
    declared.  Missing from the full claim: static equs declared in several files, names that are not
    lower case (-equ option) and empty values, for which it is false (below). *)
Theorem C13_expansion_partial : forall ds q f s ts, equ_history ds q -> ordered ds f s ->
  exists out,
    expansion (fun _ => None) (equ_at q f s) ts out /\
    (exists fuel, drain fuel (file_env q f s) never (unchecked ts) = DDone out) /\
    (forall fuel, drain fuel (file_env q f s) never (unchecked ts) = DDone out \/
                  drain fuel (file_env q f s) never (unchecked ts) = DMore) /\
    (forall pre x post, out = (pre ++ TIdent x :: post)%list ->
       equ_at q f s x = None \/ exists post', post = TEqu :: post').
Proof. exact equ_expansion. Qed.
Print Assumptions C13_expansion_partial.

(** Under the same conditions reading the value of a further declaration finishes. *)
Theorem C13_declaration_partial : forall ds q r value,
  equ_history ds q -> ordered ds (r_file r) (r_section r) ->
  exists fuel out, drain fuel (file_env q (r_file r) (r_section r)) is_separator (unchecked value) = DDone out.
Proof. exact declaration_ends. Qed.
Print Assumptions C13_declaration_partial.

(** Looking ahead any number of tokens first does not change what is delivered. *)
Theorem C13_lookahead : forall e stop k g l l' f o, e_replacements e = [] ->
  peek_process k g e l = PDone l' -> drain f e stop l = DDone o ->
  exists f', drain f' e stop l' = DDone o.
Proof. exact peek_keeps. Qed.
Print Assumptions C13_lookahead.

Definition ex_q1 : equs :=
  match define_equ 10 no_equs "sum" 0 1 [TIdent "x"; TPlus; TIdent "y"] with Some q => q | None => no_equs end.
Definition ex_q2 : equs :=
  match define_equ 10 ex_q1 "x" 0 2 [TInt 7] with Some q => q | None => no_equs end.
Example C13_ex_history :
  equ_history [mkRef "sum" 0 1; mkRef "x" 0 2] ex_q2 /\ ordered [mkRef "sum" 0 1; mkRef "x" 0 2] 0 2.
Proof.
  split.
  - change [mkRef "sum" 0 1; mkRef "x" 0 2] with (([] ++ [mkRef "sum" 0 1]) ++ [mkRef "x" 0 2])%list.
    eapply (hist_equ _ ex_q1 _ (TInt 7) [] 10).
    + eapply (hist_equ _ no_equs _ (TIdent "x") [TPlus; TIdent "y"] 10); try reflexivity.
      * constructor.
      * repeat constructor; intros z Hz; try discriminate Hz; injection Hz as <-; reflexivity.
    + reflexivity.
    + repeat constructor. intros z Hz; discriminate Hz.
    + reflexivity.
    + reflexivity.
  - split; [|split].
    + intros [|[|[|i]]] [|[|[|j]]] a b Ha Hb Hle; cbn in Ha, Hb; try discriminate; try lia;
        injection Ha as <-; injection Hb as <-; cbn; lia.
    + intros a [<-|[<-|[]]]; cbn; lia.
    + left. intros a [<-|[<-|[]]]; reflexivity.
Qed.
Example C13_ex_read :
  drain 10 (file_env ex_q2 0 2) never (unchecked [TIdent "sum"; TMult; TIdent "x"; TEqu]) =
  DDone [TInt 7; TPlus; TIdent "y"; TMult; TIdent "x"; TEqu].
Proof. vm_compute. reflexivity. Qed.

(** main.asm: "@a equ g", then include a file with "g equ @a", then use g: both declarations are
    accepted and reading g never ends. *)
Theorem C13_cross_file_refuted : exists q1 q2,
  define_equ 10 no_equs "@a" 0 1 [TIdent "g"] = Some q1 /\
  define_equ 10 q1 "g" 1 1 [TIdent "@a"] = Some q2 /\
  forall fuel, process fuel (file_env q2 0 1) [(TIdent "g", false)] = PMore.
Proof.
  destruct (define_equ 10 no_equs "@a" 0 1 [TIdent "g"]) as [q1|] eqn:E1; [|discriminate].
  vm_compute in E1. injection E1 as <-.
  match goal with |- exists q1 q2, Some ?q = Some q1 /\ _ => exists q end.
  match goal with |- exists q2, _ /\ define_equ 10 ?q "g" 1 1 [TIdent "@a"] = Some q2 /\ _ =>
    destruct (define_equ 10 q "g" 1 1 [TIdent "@a"]) as [q2|] eqn:E2; [|discriminate] end.
  vm_compute in E2. injection E2 as <-.
  match goal with |- exists q2, _ /\ Some ?q = Some q2 /\ _ => exists q end.
  split; [reflexivity|]. split; [reflexivity|]. intros fuel.
  refine (proj1 (mutual_diverges _ "g" "@a" _ _ _ fuel)); reflexivity.
Qed.
Print Assumptions C13_cross_file_refuted.

(** "-equ Foo foo" on the command line: the recursion check compares the spelling, the lookup does
    not, so using foo never ends. *)
Theorem C13_case_refuted : exists q,
  define_equ 10 no_equs "Foo" 0 0 [TIdent "foo"] = Some q /\
  forall fuel, process fuel (file_env q 0 0) [(TIdent "foo", false)] = PMore.
Proof.
  destruct (define_equ 10 no_equs "Foo" 0 0 [TIdent "foo"]) as [q|] eqn:E; [|discriminate].
  vm_compute in E. injection E as <-.
  match goal with |- exists q2, Some ?q = Some q2 /\ _ => exists q end.
  split; [reflexivity|]. intros fuel.
  refine (proj1 (mutual_diverges _ "foo" "foo" _ _ _ fuel)); reflexivity.
Qed.
Print Assumptions C13_case_refuted.

(** An equ with an empty value ("-equ x" with an empty argument, or "x equ ::") is accepted; using
    it asks for 2^64-1 tokens. *)
Theorem C13_empty_refuted : exists q,
  define_equ 10 no_equs "x" 0 0 [TSeparator; TInt 1] = Some q /\
  process 10 (file_env q 0 0) [(TIdent "x", false)] = PBad.
Proof. eexists. split; vm_compute; reflexivity. Qed.
Print Assumptions C13_empty_refuted.

(** *** C14: macro arguments *)

(** Reading a macro body finishes and gives the body with every parameter replaced by its argument
    and every equ expanded, when no argument (or renamed label) contains the name of a parameter, a
    label of the macro or an equ.  Missing: arguments that mention parameter names. *)
Theorem C14_macro_body_partial : forall ds q f s reps ts,
  equ_history ds q -> ordered ds f s ->
  (forall x v, find_replacement x reps = Some v ->
     v <> [] /\ forall y, In (TIdent y) v -> find_replacement y reps = None /\ equ_at q f s y = None) ->
  exists out,
    expansion (fun x => find_replacement x reps) (equ_at q f s) ts out /\
    exists fuel, drain fuel (mkEnv reps (equ_at q f s)) never (unchecked ts) = DDone out.
Proof. exact macro_expansion. Qed.
Print Assumptions C14_macro_body_partial.

Definition ex_reps : list (string * list token) :=
  [("p", [TInt 1; TPlus; TIdent "z"]); ("r", [TIdent "k"]); ("@@l", [TIdent "@@m_l_00000000"])].
Example C14_ex : forall x v, find_replacement x ex_reps = Some v ->
     v <> [] /\ forall y, In (TIdent y) v -> find_replacement y ex_reps = None /\ equ_at ex_q2 0 2 y = None.
Proof.
  intros x v. unfold ex_reps. cbn [find_replacement].
  destruct (String.eqb "p" x); [intros H; injection H as <-|
  destruct (String.eqb "r" x); [intros H; injection H as <-|
  destruct (String.eqb "@@l" x); [intros H; injection H as <-|discriminate]]];
  (split; [discriminate|]); cbn [In]; intros y Hy;
  repeat (destruct Hy as [Hy|Hy]; [try discriminate Hy; injection Hy as <-; split; reflexivity|]); destruct Hy.
Qed.
Example C14_ex_read :
  drain 20 (mkEnv ex_reps (equ_at ex_q2 0 2)) never
    (unchecked [TIdent "@@l"; TColon; TIdent "p"; TMult; TIdent "x"; TComma; TIdent "r"]) =
  DDone [TIdent "@@m_l_00000000"; TColon; TInt 1; TPlus; TIdent "z"; TMult; TInt 7; TComma; TIdent "k"].
Proof. vm_compute. reflexivity. Qed.

(** A macro with parameter a, called with the argument "1+a": reading the body never ends. *)
Theorem C14_self_argument_refuted : forall fuel,
  drain fuel (mkEnv [("a", [TInt 1; TPlus; TIdent "a"])] (fun _ => None)) never [(TIdent "a", false)] = DMore.
Proof. intros fuel. exact (self_argument_diverges fuel fuel (le_n fuel)). Qed.
Print Assumptions C14_self_argument_refuted.
