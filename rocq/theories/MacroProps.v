(** Property theorems C95, C96 (macros). *)

Require Import ZArith NArith Bool Lia String List.
From Verif Require Import ExprModel ParseModel SymModel ExpandModel MacroModel MacroSpec MacroProofs MacroLabelProofs.
Import ListNotations.
Local Open Scope string_scope.
Local Open Scope list_scope.

(** *** C95: arguments of calls and definitions *)

(** Arguments with commas between them, whose own commas stand in nested brackets, are taken apart again; they are as many as the parameters. *)
Theorem C95_nested : forall params l rest, List.length l = List.length params -> Forall (fun a => a <> [] /\ text true a) l ->
  call_arguments params (separated l ++ TSeparator :: rest) = Fine (l, rest).
Proof. exact nested_arguments. Qed.
Print Assumptions C95_nested.

(** What is accepted at all: as many arguments as parameters, none empty, in each of them as many round brackets closed as opened and no comma
    where all kinds of brackets are closed; curly and square brackets are closed only if another argument follows. *)
Theorem C95_accepted : forall params ts l rest, call_arguments params ts = Fine (l, rest) <->
  List.length l = List.length params /\ ordered l /\ ts = separated l ++ TSeparator :: rest.
Proof. exact call_arguments_iff. Qed.
Print Assumptions C95_accepted.

(** Reading the arguments ends if the statement does.  Missing: statements without an end (below). *)
Theorem C95_ends_partial : forall params ts, In TSeparator ts -> call_arguments params ts <> Endless.
Proof. exact call_ends. Qed.
Print Assumptions C95_ends_partial.

(** A definition gives the macro with these parameters and the tokens up to the first .endmacro; it is accepted exactly if that is there and ends
    its statement, the name is new and the definition is neither in a macro whose labels are being looked for nor in a block with a condition that is
    false or not known. *)
Theorem C95_definition : forall isfun file section initializing in_unknown in_true known n ps body m rest, ~ In "." (n :: ps) ->
  define isfun file section initializing in_unknown in_true known (header (n :: ps) ++ TSeparator :: body) = DAdded m rest <->
  initializing = false /\ in_unknown = false /\ in_true = true /\ known n = false /\
  exists c, body = c ++ TIdent ".endmacro" :: TSeparator :: rest /\ ~ In (TIdent ".endmacro") c /\ m = mkMacro n ps c [] 0.
Proof.
  intros isfun file section initializing in_unknown in_true known n ps body m rest H. destruct initializing.
  - split; [discriminate|]. intros (E & _). discriminate E.
  - rewrite (define_iff isfun file section in_unknown in_true known n ps body m rest H). tauto.
Qed.
Print Assumptions C95_definition.

(** f(a, b), [c, d] : two arguments *)
Definition ex_args : list (list token) :=
  [[TIdent "f"; TLParen; TIdent "a"; TComma; TIdent "b"; TRParen]; [TLBrack; TIdent "c"; TComma; TIdent "d"; TRBrack]].
Example C95_ex : Forall (fun a => a <> [] /\ text true a) ex_args.
Proof.
  assert (Hi : forall top x l, text top l -> text top (TIdent x :: l)).
  { intros top x l H. apply text_token; try discriminate; [|exact H]. cbn. intuition discriminate. }
  assert (Hc : forall l, text false l -> text false (TComma :: l)).
  { intros l H. apply text_token; try discriminate; [|exact H]. cbn. intuition discriminate. }
  constructor; [split; [discriminate|]|constructor; [split; [discriminate|]|constructor]].
  - apply Hi. apply (text_round true [TIdent "a"; TComma; TIdent "b"] []); [apply Hi, Hc, Hi|]; constructor.
  - apply (text_square true [TIdent "c"; TComma; TIdent "d"] []); [apply Hi, Hc, Hi|]; constructor.
Qed.
Example C95_ex_call : call_arguments ["x"; "y"] (separated ex_args ++ [TSeparator; TIdent "nop"]) = Fine (ex_args, [TIdent "nop"]).
Proof. vm_compute. reflexivity. Qed.
Example C95_ex_definition : define (fun _ => false) 0 0 false false true (fun _ => false)
  [TIdent "m"; TComma; TIdent "a"; TSeparator; TIdent ".word"; TIdent "a"; TSeparator; TIdent ".endmacro"; TSeparator; TIdent "nop"] =
  DAdded (mkMacro "m" ["a"] [TIdent ".word"; TIdent "a"; TSeparator] [] 0) [TIdent "nop"].
Proof. vm_compute. reflexivity. Qed.

(** Brackets other than round ones are not checked: "m ],[" is a call with the one argument "],[". *)
Theorem C95_brackets_refuted : exists a rest, ~ text true a /\ call_arguments ["x"] (a ++ TSeparator :: rest) = Fine ([a], rest).
Proof.
  exists [TRBrack; TComma; TLBrack], []. split; [|reflexivity].
  intros H. inversion H as [|top t l Hb| | |]; subst. apply Hb. cbn. tauto.
Qed.
Print Assumptions C95_brackets_refuted.

(** ".macro n", newline, "m 1 .endmacro", newline is accepted as a definition.  Its content is "m 1" with no end of a statement, and reading the
    arguments of this call of m does not end. *)
Theorem C95_endless_refuted : exists d c,
  define (fun _ => false) 0 0 false false true (fun x => String.eqb x "m") d = DAdded (mkMacro "n" [] (TIdent "m" :: c) [] 0) [] /\
  call_arguments ["x"] c = Endless.
Proof.
  exists [TIdent "n"; TSeparator; TIdent "m"; TInt 1; TIdent ".endmacro"; TSeparator], [TInt 1]. split; vm_compute; reflexivity.
Qed.
Print Assumptions C95_endless_refuted.

(** The same for a call with too many arguments, "m 1,2": it is not reported. *)
Theorem C95_endless_many_refuted : exists d c,
  define (fun _ => false) 0 0 false false true (fun x => String.eqb x "m") d = DAdded (mkMacro "n" [] (TIdent "m" :: c) [] 0) [] /\
  call_arguments ["x"] c = Endless /\ call_arguments ["x"] (c ++ [TSeparator]) = Wrong "Too many macro arguments".
Proof.
  exists [TIdent "n"; TSeparator; TIdent "m"; TInt 1; TComma; TInt 2; TIdent ".endmacro"; TSeparator], [TInt 1; TComma; TInt 2].
  repeat split; vm_compute; reflexivity.
Qed.
Print Assumptions C95_endless_many_refuted.

(** *** C96: calls of a macro *)

(** However often a macro is called, each call stands for the content with its own arguments in place of the parameters and the labels of the
    content under names with the number of the call, if the arguments keep apart; for the names see C12.  Here no equ is involved (C14).  Missing:
    arguments that mention a name given to a label in the first call (below), a parameter (C14) or a label of the content. *)
Theorem C96_calls_partial : forall name params c l own,
  apart params c l ->
  (forall k x, declares c x -> own k x = Some (macro_label_name name x (N.of_nat k))) ->
  (forall k x, ~ declares c x -> own k x = None) ->
  forall outs, (N.of_nat (List.length l) <= 2 ^ 64)%N ->
  calls (fun _ => None) (mkMacro name params c [] 0) l outs <-> outs = texts params c own 0 l.
Proof. exact macro_calls. Qed.
Print Assumptions C96_calls_partial.

(** ".macro def,p,v", "p: @@x: .word v,@@x" *)
Definition ex_content : list token :=
  [TIdent "p"; TColon; TIdent "@@x"; TColon; TIdent ".word"; TIdent "v"; TComma; TIdent "@@x"; TSeparator].
(** "def foo,1+base" and "def bar,foo" *)
Definition ex_calls : list (list (list token)) :=
  [[[TIdent "foo"]; [TInt 1; TPlus; TIdent "base"]]; [[TIdent "bar"]; [TIdent "foo"]]].
Lemma ex_declares : forall x, declares ex_content x <-> x = "p" \/ x = "@@x".
Proof. intros x. rewrite declares_iff. cbn. intuition congruence. Qed.
Lemma ex_named : forall x, names_label ["p"; "v"] ex_content (hd [] ex_calls) x <-> x = "foo".
Proof.
  intros x. unfold names_label. split.
  - intros (p & Hp & Hb). apply ex_declares in Hp as [-> | ->]; vm_compute in Hb; congruence.
  - intros ->. exists "p". split; [apply ex_declares; auto|reflexivity].
Qed.
Example C96_ex_apart : apart ["p"; "v"] ex_content ex_calls.
Proof.
  constructor.
  - intros args [<-|[<-|[]]]; (split; [reflexivity|]); repeat constructor; cbn; intuition discriminate.
  - intros args x a [<-|[<-|[]]] Hx Hb; apply ex_declares in Hx as [-> | ->]; vm_compute in Hb; try discriminate Hb;
      injection Hb as <-; eauto.
  - intros args a y Hargs Ha Hy Hd. apply ex_declares in Hd. cbn in Hargs.
    destruct Hd as [-> | ->]; [left; reflexivity|]. exfalso.
    destruct Hargs as [<-|[<-|[]]]; destruct Ha as [<-|[<-|[]]]; cbn in Hy; intuition discriminate.
  - intros args a y Hargs Ha Hy. rewrite ex_named.
    destruct Hargs as [<-|[<-|[]]]; destruct Ha as [<-|[<-|[]]]; cbn in Hy; try contradiction.
    destruct Hy as [Hy|[Hy|[]]]; try discriminate Hy. injection Hy as <-. cbn. intuition discriminate.
  - intros y Hy Hn. rewrite ex_named. intros ->. cbn in Hy. intuition discriminate.
Qed.
Example C96_ex : texts ["p"; "v"] ex_content
    (fun k x => if mem x ["p"; "@@x"] then Some (macro_label_name "def" x (N.of_nat k)) else None) 0 ex_calls =
  [[TIdent "foo"; TColon; TIdent "@@def_x_00000000"; TColon; TIdent ".word"; TInt 1; TPlus; TIdent "base"; TComma; TIdent "@@def_x_00000000"; TSeparator];
   [TIdent "bar"; TColon; TIdent "@@def_x_00000001"; TColon; TIdent ".word"; TIdent "foo"; TComma; TIdent "@@def_x_00000001"; TSeparator]].
Proof. vm_compute. reflexivity. Qed.

(** The names given to labels in the first call are taken for labels of the macro later on: with "p: .word v" the calls "def foo,1" and
    "def bar,0+foo" make the second one refer to def_foo_00000001, which is nowhere defined, in place of foo. *)
Theorem C96_first_names_refuted : exists c outs,
  declares c "p" /\ (forall x, declares c x -> x = "p") /\
  calls (fun _ => None) (mkMacro "def" ["p"; "v"] c [] 0)
    [[[TIdent "foo"]; [TInt 1]]; [[TIdent "bar"]; [TInt 0; TPlus; TIdent "foo"]]] outs /\
  outs = [[TIdent "foo"; TColon; TIdent ".word"; TInt 1; TSeparator];
          [TIdent "bar"; TColon; TIdent ".word"; TInt 0; TPlus; TIdent "def_foo_00000001"; TSeparator]].
Proof.
  exists [TIdent "p"; TColon; TIdent ".word"; TIdent "v"; TSeparator]. eexists.
  split; [apply declares_iff; left; reflexivity|].
  split; [intros x Hx; apply declares_iff in Hx; cbn in Hx; intuition congruence|].
  split; [|reflexivity].
  econstructor; [|econstructor; [|constructor]].
  - apply (inst_first _ _ _ [TIdent "foo"; TColon; TIdent ".word"; TInt 1; TSeparator]); [reflexivity| |]; exists 20%nat; vm_compute; reflexivity.
  - apply inst_later; [discriminate|]. exists 20%nat. vm_compute. reflexivity.
Qed.
Print Assumptions C96_first_names_refuted.

(** An argument that is the name of a label of the content takes the label's own name away: with "x: .word v" the calls "m x" and "m x" both define
    x itself. *)
Theorem C96_own_names_refuted : exists c outs,
  declares c "x" /\ ~ In "x" ["v"] /\
  calls (fun _ => None) (mkMacro "m" ["v"] c [] 0) [[[TIdent "x"]]; [[TIdent "x"]]] outs /\
  outs = [[TIdent "x"; TColon; TIdent ".word"; TIdent "x"; TSeparator]; [TIdent "x"; TColon; TIdent ".word"; TIdent "x"; TSeparator]].
Proof.
  exists [TIdent "x"; TColon; TIdent ".word"; TIdent "v"; TSeparator]. eexists.
  split; [apply declares_iff; left; reflexivity|].
  split; [cbn; intuition discriminate|].
  split; [|reflexivity].
  econstructor; [|econstructor; [|constructor]].
  - apply (inst_first _ _ _ [TIdent "x"; TColon; TIdent ".word"; TIdent "x"; TSeparator]); [reflexivity| |]; exists 20%nat; vm_compute; reflexivity.
  - apply inst_later; [discriminate|]. exists 20%nat. vm_compute. reflexivity.
Qed.
Print Assumptions C96_own_names_refuted.
