(** White space, comments, lines and string literals of the source language, stated on their own. *)

Require Import List String Ascii Bool.
From Verif Require Import ParseModel.
Import ListNotations.
Local Open Scope string_scope.

(** The text contains no end of a block comment. *)
Definition no_end (x : string) : Prop := forall a b, x <> a ++ "*/" ++ b.

(** [blank s ls s' ls']: from position [s] with the lines [ls] to come, only blanks, tabs and block
    comments lie before [s'] with [ls'] to come.  A comment ends at the first "*/" and may span lines. *)
Inductive blank : string -> list string -> string -> list string -> Prop :=
| b_none : forall s ls, blank s ls s ls
| b_space : forall c s ls s' ls', c = " "%char \/ c = "009"%char -> blank s ls s' ls' -> blank (String c s) ls s' ls'
| b_comment : forall body s ls s' ls', no_end (body ++ "*") -> blank s ls s' ls' ->
    blank ("/*" ++ body ++ "*/" ++ s) ls s' ls'
| b_lines : forall body between last s ls s' ls',
    no_end body -> Forall no_end between -> no_end (last ++ "*") -> blank s ls s' ls' ->
    blank ("/*" ++ body) (between ++ (last ++ "*/" ++ s) :: ls) s' ls'.

(** Comments to the end of the line. *)
Definition line_comment (s : string) : Prop := exists r, s = ";" ++ r \/ s = "//" ++ r.

(** [spells raw t]: between quotes, [raw] stands for the text [t]. *)
Definition quote : ascii := "034".
Definition bslash : ascii := "092".
Inductive spells : string -> string -> Prop :=
| sp_end : spells "" ""
| sp_plain : forall c raw t, c <> quote -> c <> bslash -> spells raw t -> spells (String c raw) (String c t)
| sp_quote : forall raw t, spells raw t -> spells (String bslash (String quote raw)) (String quote t)
| sp_bslash : forall raw t, spells raw t -> spells (String bslash (String bslash raw)) (String bslash t)
| sp_lone : forall c raw t, c <> quote -> c <> bslash -> spells (String c raw) t ->
    spells (String bslash (String c raw)) (String bslash t).
(** The way to write any text. *)
Fixpoint escaped (t : string) : string :=
  match t with
  | "" => ""
  | String c t => if Ascii.eqb c quote || Ascii.eqb c bslash then String bslash (String c (escaped t)) else String c (escaped t)
  end.

(** Text that the tokenizer handles without accident: 7-bit characters, no character constants, no
    block comments, and no more than fifteen letters and digits in a row. *)
Definition letter_or_digit (c : ascii) : Prop :=
  let n := nat_of_ascii c in (48 <= n <= 57 \/ 65 <= n <= 90 \/ 97 <= n <= 122)%nat.
Fixpoint every (P : ascii -> Prop) (s : string) : Prop :=
  match s with "" => True | String c s => P c /\ every P s end.
Definition plain_text (s : string) : Prop :=
  every (fun c => (nat_of_ascii c < 128)%nat /\ c <> "'"%char) s /\
  (forall a b, s <> a ++ "/*" ++ b) /\
  (forall a b c, s = a ++ b ++ c -> every letter_or_digit b -> (String.length b <= 15)%nat).
