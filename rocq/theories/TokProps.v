(** Properties of whole files of tokens: C63 (string literals), C64 (comments), C65 (lines), C66 (no
    accidents).  [strtod] is the conversion of decimal fractions, which none of this depends on. *)

Require Import ZArith List String Ascii Bool Lia.
Require Import Floats.SpecFloat.
From Verif Require Import Res ParseModel LexModel TokModel TokSpec TokProofs.
Import ListNotations.
Local Open Scope string_scope.

Section Props.
Variable strtod : string -> option spec_float.

(** * C63 *)

(** A literal is the text that it spells, and what follows the closing quote comes next. *)
Theorem C63_literal : forall raw t rest ls, spells raw t ->
  lex_from strtod false (String quote (raw ++ String quote rest)) ls =
  do ts <- (match rest with "" => do ts <- lex_rest strtod false ls; ROk (TSeparator :: ts)
            | _ => lex_from strtod false rest ls end);
  ROk (TStr t :: ts).
Proof. exact (literal strtod). Qed.

(** Every text can be written. *)
Theorem C63_writable : forall t, spells (escaped t) t.
Proof. exact spells_escaped. Qed.

(** Text without a closing quote is an error up to the end of the line. *)
Theorem C63_unterminated : forall s ls, (forall raw t rest, spells raw t -> s <> raw ++ String quote rest) ->
  lex_from strtod false (String quote s) ls = do ts <- lex_rest strtod false ls; ROk (TInvalid :: TSeparator :: ts).
Proof. exact (unterminated strtod). Qed.

(** * C64 *)

Theorem C64_blank : forall equ s ls s' ls', blank s ls s' ls' -> s' <> "" \/ ls' <> [] ->
  lex_from strtod equ s ls = lex_from strtod equ s' ls'.
Proof. exact (lex_blank strtod). Qed.

(** At the end of a line, with or without a line comment. *)
Theorem C64_line_end : forall equ s ls s' ls', blank s ls s' ls' -> s <> "" \/ ls <> [] -> s' = "" \/ line_comment s' ->
  lex_from strtod equ s ls = do ts <- lex_rest strtod equ ls'; ROk (TSeparator :: ts).
Proof. exact (lex_line_end strtod). Qed.

(** Only blanks and comments are skipped, and all of them. *)
Theorem C64_only : forall s ls s' ls', skip s ls = (s', ls', false) ->
  exists s'', blank s ls s'' ls' /\
    (s'' = s' /\ (s' = "" \/ exists c r, s' = String c r /\ c <> " "%char /\ c <> "009"%char /\ ~ line_comment s' /\ forall x, s' <> "/*" ++ x)
     \/ line_comment s'' /\ s' = "").
Proof. exact (skip_only strtod). Qed.

(** * C65 *)

(** The tokens of the parts are put together, if the first part has no lexical error, every equ in it
    has its value, and its last line is not empty.  Missing: the other cases, of which the next two
    theorems show that they differ. *)
Theorem C65_lines_partial : forall a b ta, tokenize_file strtod a = ROk ta -> ~ In TInvalid ta ->
  (forall p u, ta = (p ++ TEqu :: u)%list -> exists v, In (TEquValue v) u) -> last a "" <> "" ->
  tokenize_file strtod (a ++ b) = do tb <- tokenize_file strtod b; ROk (ta ++ tb)%list.
Proof. exact (file_app strtod). Qed.

(** An equ at the end of a line swallows the next line. *)
Theorem C65_lines_refuted : exists a b ta tb, tokenize_file strtod a = ROk ta /\ tokenize_file strtod b = ROk tb /\
  ~ In TInvalid ta /\ last a "" <> "" /\ tokenize_file strtod (a ++ b) <> ROk (ta ++ tb)%list.
Proof.
  exists ["x equ"], ["nop"], [TIdent "x"; TEqu; TSeparator], [TIdent "nop"; TSeparator].
  repeat split; try (vm_compute; intuition discriminate).
Qed.

(** A last line that is empty gives no separator, but does so when there is more behind it. *)
Theorem C65_empty_line_refuted : exists a b ta tb, tokenize_file strtod a = ROk ta /\ tokenize_file strtod b = ROk tb /\
  ~ In TInvalid ta /\ ~ In TEqu ta /\ tokenize_file strtod (a ++ b) <> ROk (ta ++ tb)%list.
Proof.
  exists ["x"; ""], ["y"], [TIdent "x"; TSeparator], [TIdent "y"; TSeparator].
  repeat split; try (vm_compute; intuition discriminate).
Qed.

(** * C66 *)

(** The loop always ends. *)
Theorem C66_ends : forall lines, tokenize_file strtod lines <> RErr.
Proof. exact (file_total strtod). Qed.

(** No accident on plain text.  Missing: other characters, character constants, block comments and
    long numbers, for which it is false. *)
Theorem C66_survives_partial : forall lines, Forall plain_text lines -> exists ts, tokenize_file strtod lines = ROk ts.
Proof. exact (file_safe strtod). Qed.

(** A block comment that is not closed: std::out_of_range is thrown while the error is recorded. *)
Theorem C66_comment_refuted : forall text, no_end text -> tokenize_file strtod ["/*" ++ text] = RUb.
Proof. exact (open_comment strtod). Qed.

(** A quote at the end of a line reads beyond it. *)
Theorem C66_quote_refuted : tokenize_file strtod ["'"] = RUb.
Proof. vm_compute. reflexivity. Qed.

(** A number of 2^63 or more overflows. *)
Theorem C66_number_refuted : tokenize_file strtod ["9223372036854775808"] = RUb.
Proof. vm_compute. reflexivity. Qed.

(** Half of a two-byte character at the end of a line. *)
Theorem C66_utf8_refuted : tokenize_file strtod [String "195" ""] = RUb.
Proof. vm_compute. reflexivity. Qed.

End Props.

Print Assumptions C63_literal.
Print Assumptions C63_writable.
Print Assumptions C63_unterminated.
Print Assumptions C64_blank.
Print Assumptions C64_line_end.
Print Assumptions C64_only.
Print Assumptions C65_lines_partial.
Print Assumptions C65_lines_refuted.
Print Assumptions C65_empty_line_refuted.
Print Assumptions C66_ends.
Print Assumptions C66_survives_partial.
Print Assumptions C66_comment_refuted.
Print Assumptions C66_quote_refuted.
Print Assumptions C66_number_refuted.
Print Assumptions C66_utf8_refuted.

(** Concrete cases. *)
Definition no_strtod (_ : string) : option spec_float := None.
(** Between the quotes: a, escaped quote, b, escaped backslash, and a backslash on its own before n. *)
Definition ex_raw : string := String "a" (String bslash (String quote (String "b" (String bslash (String bslash (String bslash "n")))))).
Definition ex_text : string := String "a" (String quote (String "b" (String bslash (String bslash "n")))).
Example C63_ex : spells ex_raw ex_text /\
  tokenize_file no_strtod [String quote (ex_raw ++ String quote ", 1"); "x"] =
  ROk [TStr ex_text; TComma; TInt 1; TSeparator; TIdent "x"; TSeparator].
Proof.
  split; [|vm_compute; reflexivity].
  unfold ex_raw, ex_text. apply sp_plain; [discriminate|discriminate|]. apply sp_quote. apply sp_plain; [discriminate|discriminate|].
  apply sp_bslash. apply sp_lone; [discriminate|discriminate|]. apply sp_plain; [discriminate|discriminate|]. constructor.
Qed.
Example C64_ex : blank " /* a" ["b *"; "c**/ /* */+ 1 // d"] "+ 1 // d" [] /\
  tokenize_file no_strtod ["x /* a"; "b *"; "c**/ /* */+ 1 // d"] = ROk [TIdent "x"; TPlus; TInt 1; TSeparator].
Proof.
  split; [|vm_compute; reflexivity].
  apply b_space; [now left|]. change ["b *"; "c**/ /* */+ 1 // d"] with (["b *"] ++ ("c*" ++ "*/" ++ " /* */+ 1 // d")%string :: [])%list.
  apply (b_lines " a").
  - now apply skip_block_none_inv.
  - repeat constructor. now apply skip_block_none_inv.
  - now apply skip_block_none_inv.
  - apply b_space; [now left|]. apply (b_comment " "); [now apply skip_block_none_inv|]. constructor.
Qed.
Example C65_ex : tokenize_file no_strtod (["x equ 5"; "a + \"; "b"] ++ ["c"])%list =
  ROk ([TIdent "x"; TEqu; TEquValue "5"; TSeparator; TIdent "a"; TPlus; TIdent "b"; TSeparator] ++ [TIdent "c"; TSeparator])%list.
Proof. vm_compute. reflexivity. Qed.
Example C66_ex : plain_text "x equ 12 + y1 ; z" /\
  tokenize_file no_strtod ["x equ 12 + y1 ; z"] = ROk [TIdent "x"; TEqu; TEquValue "12 + y1 "; TSeparator].
Proof.
  split; [|vm_compute; reflexivity]. split; [cbn [every]; repeat (split; [split; [vm_compute; lia|vm_compute; congruence]|]); exact I|]. split.
  - intros a b E. repeat (destruct a as [|? a]; [discriminate|injection E as <- E]). destruct a; discriminate E.
  - intros a b c E H.
    assert (G : forall n s a b c, s = a ++ b ++ c -> every letter_or_digit b -> check_runs n s = true -> (String.length b <= n)%nat) by exact runs_sound.
    eapply G; [exact E|exact H|vm_compute; reflexivity].
Qed.
