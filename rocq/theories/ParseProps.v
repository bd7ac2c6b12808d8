(** Property theorems C03, C04, C05, C16 (expression syntax, printing, number literals). *)

Require Import ZArith Bool List String Ascii Lia.
Require Import Floats.SpecFloat.
Require Import Verif.Ints Verif.Res Verif.ExprModel Verif.ParseModel Verif.ParseSpec Verif.ParseProofs.
Require Import Verif.LexModel Verif.LexSpec Verif.LexProofs Verif.TextSpec Verif.TextProofs.
Require Import Verif.ExprProps.
Import ListNotations.

(** *** C03: precedence and associativity *)

(** Every sentence of the documented grammar, in front of anything that cannot extend it, is parsed
    to its tree and consumed exactly. *)
Theorem C03_grammar : forall isfun file section ts e rest,
  gram isfun file section 12 ts e -> cannot_extend rest ->
  parse_expression isfun file section (ts ++ rest) = Some (e, rest).
Proof. exact grammar_parsed. Qed.
Print Assumptions C03_grammar.

(** Writing a tree with parentheses only where precedence and left associativity require them and
    parsing gives the tree back.  Missing from the full claim: here the operand of a unary operator
    is parenthesised when it is itself a unary operator, which C does not require. *)
Theorem C03_minimal_parentheses_partial : forall isfun file section e rest,
  writable isfun file section e -> cannot_extend rest ->
  parse_expression isfun file section (show 12 e ++ rest) = Some (e, rest).
Proof.
  intros. apply grammar_parsed; [|assumption]. apply show_gram; [assumption|lia].
Qed.
Print Assumptions C03_minimal_parentheses_partial.

(** With the parentheses C requires the claim fails: "!!x" is not parsed. *)
Theorem C03_nested_unary_refuted : exists isfun file section e rest,
  writable isfun file section e /\ cannot_extend rest /\
  parse_expression isfun file section (show_c 12 e ++ rest) = None.
Proof.
  exists (fun _ => false), 0%Z, 0%Z, (EUn ULogNot (EUn ULogNot (EIdent "x" 0 0))), [TSeparator].
  split; [|split; [reflexivity|vm_compute; reflexivity]].
  cbn. split; [discriminate|auto].
Qed.
Print Assumptions C03_nested_unary_refuted.

(** a - b - c * d << f(1, x ? 2 : 3) & (y | z), followed by a comma *)
Definition ex_tree : expr :=
  (let v n := EIdent n 1 2 in
  EBin BAnd
    (EBin BShl (EBin BSub (EBin BSub (v "a") (v "b")) (EBin BMult (v "c") (v "d")))
               (ECall "f" [EInt 1; ECond (v "x") (EInt 2) (EInt 3)]))
    (EBin BOr (v "y") (v "z")))%string.
Example C03_ex : writable (fun n => String.eqb n "f") 1 2 ex_tree /\ cannot_extend [TComma] /\
  show 12 ex_tree =
    [TIdent "a"; TMinus; TIdent "b"; TMinus; TIdent "c"; TMult; TIdent "d"; TLeftShift;
     TIdent "f"; TLParen; TInt 1; TComma; TIdent "x"; TQuestion; TInt 2; TColon; TInt 3; TRParen;
     TBitAnd; TLParen; TIdent "y"; TBitOr; TIdent "z"; TRParen]%string.
Proof. split; [|split; [reflexivity|vm_compute; reflexivity]]. cbn. repeat split; try discriminate; auto. Qed.

(** *** C04: malformed expressions *)

(** When every '(' of the tokens opens a well formed group, an accepted prefix is a sentence of the
    grammar with the returned tree.  Missing: token sequences with a malformed group, see below. *)
Theorem C04_accepted_is_grammatical_partial : forall isfun file section ts e rest,
  groups_ok isfun file section false ts ->
  parse_expression isfun file section ts = Some (e, rest) ->
  exists c, ts = c ++ rest /\ gram isfun file section 12 c e.
Proof. exact parsed_grammatical. Qed.
Print Assumptions C04_accepted_is_grammatical_partial.

(** In general an accepted prefix is a sentence of the grammar, with the returned tree, after deleting
    stretches that start at a '(' which opens no well formed group and end before a unary operator;
    so nothing is accepted for the sake of what stands behind an unclosed '('. *)
Theorem C04_accepted_up_to_groups_partial : forall isfun file section ts e rest,
  parse_expression isfun file section ts = Some (e, rest) ->
  exists c, reduces isfun file section ts c rest /\ gram isfun file section 12 c e.
Proof. exact parsed_reduces. Qed.
Print Assumptions C04_accepted_up_to_groups_partial.
(** "2 + (1, - 3" is accepted as 2 + -3. *)
Example C04_ex_up_to : parse_expression (fun _ => false) 0 0
  [TInt 2; TPlus; TLParen; TInt 1; TComma; TMinus; TInt 3] = Some (EBin BAdd (EInt 2) (EUn UNeg (EInt 3)), []).
Proof. vm_compute. reflexivity. Qed.

(** "(*) - 3" is accepted and means -3: the tokens of the failed group are dropped. *)
Theorem C04_dropped_tokens_refuted : exists isfun file section ts e,
  parse_expression isfun file section ts = Some (e, []) /\
  ~ (exists c, ts = c ++ [] /\ gram isfun file section 12 c e).
Proof.
  exists (fun _ => false), 0%Z, 0%Z, [TLParen; TMult; TRParen; TMinus; TInt 3], (EUn UNeg (EInt 3)).
  split; [vm_compute; reflexivity|].
  intros [c [E Hg]]. rewrite app_nil_r in E. subst c.
  apply (proj1 (gram_mults (fun _ => false) 0%Z 0%Z)) in Hg. discriminate Hg.
Qed.
Print Assumptions C04_dropped_tokens_refuted.

(** 2 * (x + 1) , ... with x: the group is well formed and the expression is accepted. *)
Example C04_ex : let ts := [TInt 2; TMult; TLParen; TIdent "x"; TPlus; TInt 1; TRParen; TComma]%string in
  groups_ok (fun _ => false) 0 0 false ts /\
  parse_expression (fun _ => false) 0 0 ts =
    Some (EBin BMult (EInt 2) (EBin BAdd (EIdent "x" 0 0) (EInt 1)), [TComma]).
Proof.
  split; [|vm_compute; reflexivity]. cbn. repeat split; try discriminate.
  intros _. exists [TIdent "x"; TPlus; TInt 1]%string, [TComma]. split; [reflexivity|].
  exists (EBin BAdd (EIdent "x" 0 0) (EInt 1)).
  apply (gram_up _ _ _ 3); [lia|]. apply (g_bin _ _ _ BAdd [TIdent "x"%string] [TInt 1]).
  - apply (gram_up _ _ _ 0); [cbn; lia|]. now constructor.
  - apply (gram_up _ _ _ 0); [cbn; lia|]. constructor.
Qed.
(** A malformed sequence that is rejected: "2 * )". *)
Example C04_ex_reject : parse_expression (fun _ => false) 0 0 [TInt 2; TMult; TRParen] = None.
Proof. vm_compute. reflexivity. Qed.

(** *** C05: printing and reading back *)

(** The text of a tree, spliced in front of any text that starts with a blank, a comma or ')',
    tokenizes to tokens of its own followed by the tokens of that text, and parses to a tree with
    the same value and messages in every state.  Missing: floats, calls, strings that need escaping,
    the smallest integer, unary operators on negative constants, and the degree operator on trees
    with negative constants. *)
Theorem C05_print_parse_partial : forall strtod h isfun file section e t ms rest tr,
  printable file section e -> to_text h e = OVal t ms ->
  separated rest -> tokenize strtod rest = ROk tr -> cannot_extend tr ->
  exists ts e', tokenize strtod (t ++ rest) = ROk (ts ++ tr) /\
    parse_expression isfun file section (ts ++ tr) = Some (e', tr) /\
    forall reg st, eval reg st e' = eval reg st e.
Proof. exact print_parse. Qed.
Print Assumptions C05_print_parse_partial.

(** A string with a quote is printed without an escape and does not tokenize to a string again. *)
Theorem C05_string_refuted : exists e t, forall h,
  to_text h e = OVal t [] /\
  forall strtod, exists ts, tokenize strtod t = ROk ts /\
    forall isfun file section e' r, parse_expression isfun file section ts = Some (e', r) ->
      exists reg st, eval reg st e' <> eval reg st e.
Proof.
  exists (EStr (String "097" (String "034" (String "098" EmptyString)))). eexists. intros h.
  split; [reflexivity|]. intros strtod. eexists. split; [vm_compute; reflexivity|].
  intros isfun file section e' r H. vm_compute in H. injection H as <- _.
  exists ex_reg, ex_state. vm_compute. discriminate.
Qed.
Print Assumptions C05_string_refuted.

(** The smallest integer is printed as a literal whose conversion overflows. *)
Theorem C05_smallest_integer_refuted : exists t, forall h,
  to_text h (EInt int64_min) = OVal t [] /\ forall strtod, tokenize strtod t = RUb.
Proof. eexists. intros h. split; [vm_compute; reflexivity|]. intros strtod. vm_compute. reflexivity. Qed.
Print Assumptions C05_smallest_integer_refuted.

(** A call cannot be printed: the variant alternative that is read is not the one that is held. *)
Theorem C05_call_refuted : forall h f args, to_text h (ECall f args) = OUb.
Proof. reflexivity. Qed.
Print Assumptions C05_call_refuted.

(** ((x + -5) << 2), r4 *)
Example C05_ex : let e := EBin BShl (EBin BAdd (EIdent "x" 1 2) (EInt (-5))) (EInt 2) in
  printable 1 2 e /\ to_text ex_host e = OVal "((x + -5) << 2)"%string [] /\
  separated ", r4" /\ tokenize (fun _ => None) ", r4" = ROk [TComma; TIdent "r4"; TSeparator]%string.
Proof.
  split; [|split; [vm_compute; reflexivity|split; [cbn; auto|vm_compute; reflexivity]]].
  cbn. unfold int64_min, int64_max. repeat split; try lia; try discriminate.
  left. exists 120%nat. split; [lia|reflexivity].
Qed.

(** *** C16: number literals *)

(** A literal in any notation, up to 2^63-1 and followed by something that does not continue it, is
    tokenized to the number its digits denote.  Missing: larger literals, see below. *)
Theorem C16_literal_value_partial : forall strtod t base ds v rest,
  literal t base ds -> starts_with_digit t -> number_value base ds = Some v -> (v <= int64_max)%Z ->
  ends_number rest ->
  lex_token strtod false (t ++ rest) = ROk (TInt v, rest, false).
Proof. exact lex_literal. Qed.
Print Assumptions C16_literal_value_partial.

(** Conversely, text that is tokenized to an integer is a literal, all of whose digits belong to
    its base, with that value; so a literal with a foreign digit is never read as a number. *)
Theorem C16_literal_sound : forall strtod s v rest q, starts_with_digit s ->
  lex_token strtod false s = ROk (TInt v, rest, q) ->
  exists t base ds, s = (t ++ rest)%string /\ literal t base ds /\ number_value base ds = Some v /\
    ends_number rest.
Proof. exact lex_literal_sound. Qed.
Print Assumptions C16_literal_sound.

(** A literal above 2^63-1 overflows a signed accumulator. *)
Theorem C16_large_literal_refuted : exists t base ds v, literal t base ds /\ starts_with_digit t /\
  number_value base ds = Some v /\ forall strtod, lex_token strtod false t = RUb.
Proof.
  exists "0xFFFFFFFFFFFFFFFF"%string, 16%Z, "FFFFFFFFFFFFFFFF"%string. eexists.
  split; [apply (lit_0x "x"); auto|]. split; [exists 0%Z; reflexivity|].
  split; [vm_compute; reflexivity|]. intros. vm_compute. reflexivity.
Qed.
Print Assumptions C16_large_literal_refuted.

(** 0b1Eh is hexadecimal despite its 0b prefix and its exponent letter. *)
Example C16_ex : literal "0b1Eh" 16 "0b1E" /\ starts_with_digit "0b1Eh" /\
  number_value 16 "0b1E" = Some 2846%Z /\ ends_number " + 1" /\
  lex_token (fun _ => None) false "0b1Eh + 1" = ROk (TInt 2846, " + 1"%string, false) /\
  lex_token (fun _ => None) false "12a" = ROk (TNumberString "12a", EmptyString, false).
Proof.
  split; [apply (lit_h "h" "0b1E"); auto|]. split; [exists 0%Z; reflexivity|].
  split; [reflexivity|]. split; [|split; vm_compute; reflexivity].
  cbn. split; [|discriminate]. intros H. apply letter_or_digit_alnum in H. discriminate H.
Qed.
