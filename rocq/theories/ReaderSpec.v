(** Texts made of lines, and their encodings. *)

Require Import ZArith List Bool.
Import ListNotations.
Local Open Scope Z_scope.

(** Characters of the basic multilingual plane. *)
Definition is_char (c : Z) : Prop := 0 <= c < 0x10000.
Definition LF : Z := 10.
Definition CR : Z := 13.

(** UTF-8 as the standard defines it: one byte 0xxxxxxx, two bytes 110xxxxx 10xxxxxx, three bytes
    1110xxxx 10xxxxxx 10xxxxxx. *)
Definition utf8 (c : Z) : list Z :=
  if c <? 128 then [c]
  else if c <? 2048 then [192 + c / 64; 128 + c mod 64]
  else [224 + c / 4096; 128 + (c / 64) mod 64; 128 + c mod 64].
Definition utf16le (c : Z) : list Z := [c mod 256; c / 256].
Definition utf16be (c : Z) : list Z := [c / 256; c mod 256].

(** A text: lines with their terminators (true: CR LF, false: LF), and what follows the last one. *)
Record text := mkText { x_lines : list (list Z * bool); x_rest : list Z }.

Definition newline (crlf : bool) : list Z := if crlf then [CR; LF] else [LF].
Definition characters (t : text) : list Z :=
  flat_map (fun '(l, crlf) => l ++ newline crlf) (x_lines t) ++ x_rest t.

(** The lines a reader of the text expects. *)
Definition lines (t : text) : list (list Z) :=
  map fst (x_lines t) ++ match x_rest t with [] => [] | r => [r] end.

(** Lines consist of characters other than LF. *)
Definition is_line (l : list Z) : Prop := Forall (fun c => is_char c /\ c <> LF) l.
(** The terminator belongs to the text, not to the line. *)
Definition good_text (t : text) : Prop :=
  (forall l crlf, In (l, crlf) (x_lines t) -> is_line l /\ (crlf = false -> last l LF <> CR)) /\
  is_line (x_rest t).
(** No CR except in CR LF. *)
Definition no_stray_cr (t : text) : Prop :=
  (forall l crlf, In (l, crlf) (x_lines t) -> ~ In CR l) /\ ~ In CR (x_rest t).

(** The supported encodings of a text. *)
Inductive scheme := Utf8 | Utf16le | Utf16be.
Definition encode (s : scheme) (c : Z) : list Z :=
  match s with Utf8 => utf8 c | Utf16le => utf16le c | Utf16be => utf16be c end.
(** The byte order mark U+FEFF in a scheme. *)
Definition mark (s : scheme) : list Z := encode s 0xFEFF.
Definition encoded (s : scheme) (t : text) : list Z := flat_map (encode s) (characters t).

(** The lines in UTF-8. *)
Definition utf8_lines (t : text) : list (list Z) := map (flat_map utf8) (lines t).
