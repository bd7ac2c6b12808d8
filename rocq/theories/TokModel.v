(** Tokenizing a whole file: the loop of FileTokenizer::init over the lines of the input, with block
    comments that span lines and the flags that are kept from line to line. *)

Require Import ZArith List String Ascii Bool.
Require Import Floats.SpecFloat.
From Verif Require Import Res ParseModel LexModel.
Import ListNotations.

(** The inner loop of skipWhitespace for a block comment, Parser/Tokenizer.cpp 311-327, from behind
    the opening: the rest of the line on which it closes and the lines after that, or the text of
    the last line if the input ends first (flag). *)
Fixpoint close_comment (s : string) (lines : list string) : string * list string * bool :=
  match skip_block s with
  | Some r => (r, lines, false)
  | None => match lines with l :: ls => close_comment l ls | [] => (s, [], true) end
  end.

(** skipWhitespace, Tokenizer.cpp 298-334: the position after it, and whether the input ended in a
    comment. *)
Fixpoint skip_lines (fuel : nat) (s : string) (lines : list string) : string * list string * bool :=
  match fuel with
  | O => (s, lines, false)
  | S k =>
      match s with
      | EmptyString => (s, lines, false)
      | String c r =>
          if is_space c then skip_lines k r lines
          else if is_comment s then (EmptyString, lines, false)
          else match s with
               | String "/" (String "*" r) =>
                   let '(r', ls, bad) := close_comment r lines in
                   if bad then (r', ls, true) else skip_lines k r' ls
               | _ => (s, lines, false)
               end
      end
  end.
(** Characters left: bounds every loop. *)
Definition input_size (s : string) (lines : list string) : nat :=
  String.length s + fold_right (fun l n => S (String.length l) + n) 0 lines.
Definition skip (s : string) (lines : list string) : string * list string * bool :=
  skip_lines (S (input_size s lines)) s lines.

Section Files.
  Variable strtod : string -> option spec_float.

  (** One turn of the loop of init, 752-787, when input is left; [s] is the rest of the current line.
      A flag [equ] that is set at the end of a line stays set. *)
  Definition lex_step (next : bool -> string -> list string -> res (list token))
      (equ : bool) (s : string) (lines : list string) : res (list token) :=
    let finish (r : string) (ls : list string) (equ : bool) (toks : list token) (sep : bool) :=
      match r with
      | EmptyString =>
          let toks := toks ++ (if sep then [TSeparator] else []) in
          match ls with
          | [] => ROk toks
          | l :: ls => do ts <- next equ l ls; ROk (toks ++ ts)
          end
      | _ => do ts <- next equ r ls; ROk (toks ++ ts)
      end in
    let '(s1, l1, bad) := skip s lines in
    (* the Invalid token is created with the length linePos (321), so the Separator (776) is
       taken from beyond the line: std::out_of_range *)
    if bad then RUb
    else match s1 with
    | EmptyString => finish EmptyString l1 equ [] true
    | String c r =>
        if Ascii.eqb c backslash then
          let '(s2, l2, bad) := skip r l1 in
          (* no Separator here; but linePos is beyond an exhausted line already at 321 *)
          if bad then (if String.eqb s2 EmptyString then RUb else ROk [TInvalid])
          else finish s2 l2 equ (if String.eqb s2 EmptyString then [] else [TInvalid]) false
        else
          do x <- lex_token strtod equ s1;
          let '(t, r, equ) := x in finish r l1 equ [t] true
    end.
  (** isInputAtEnd, 731-734 *)
  Definition at_end (s : string) (lines : list string) : bool :=
    String.eqb s EmptyString && match lines with [] => true | _ => false end.
  (** The loop, 750-787. *)
  Fixpoint lex_lines (fuel : nat) (equ : bool) (s : string) (lines : list string) : res (list token) :=
    match fuel with
    | O => RErr
    | S k => if at_end s lines then ROk [] else lex_step (lex_lines k) equ s lines
    end.
  (** The tokens from a position on, with the bound that the loop cannot exceed. *)
  Definition lex_from (equ : bool) (s : string) (lines : list string) : res (list token) :=
    lex_lines (S (input_size s lines)) equ s lines.
  (** The same at the start of a line. *)
  Definition lex_rest (equ : bool) (lines : list string) : res (list token) :=
    match lines with
    | [] => ROk []
    | l :: ls => lex_from equ l ls
    end.

  (** FileTokenizer::init, 737-792, on the lines of the input. *)
  Definition tokenize_file (lines : list string) : res (list token) := lex_rest false lines.
End Files.
