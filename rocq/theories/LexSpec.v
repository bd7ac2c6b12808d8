(** What number literals denote, independently of the tokenizer. *)

Require Import ZArith List String Ascii Bool.
Import ListNotations.
Local Open Scope char_scope.
Local Open Scope Z_scope.

(** The value of a digit character. *)
Definition digit (c : ascii) : option Z :=
  match c with
  | "0" => Some 0 | "1" => Some 1 | "2" => Some 2 | "3" => Some 3 | "4" => Some 4
  | "5" => Some 5 | "6" => Some 6 | "7" => Some 7 | "8" => Some 8 | "9" => Some 9
  | "a" | "A" => Some 10 | "b" | "B" => Some 11 | "c" | "C" => Some 12
  | "d" | "D" => Some 13 | "e" | "E" => Some 14 | "f" | "F" => Some 15
  | _ => None
  end.

(** The number that digits written in a base denote; None if one of them is not a digit of it. *)
Definition digit_in (base : Z) (c : ascii) : option Z :=
  match digit c with Some d => if d <? base then Some d else None | None => None end.
Fixpoint number_from (base acc : Z) (s : string) : option Z :=
  match s with
  | EmptyString => Some acc
  | String c r =>
      match digit_in base c with
      | Some d => number_from base (acc * base + d) r
      | None => None
      end
  end.
Definition number_value (base : Z) (s : string) : option Z := number_from base 0 s.

(** The notations: text of the literal, base and digits. *)
Inductive literal : string -> Z -> string -> Prop :=
| lit_dec : forall ds, literal ds 10 ds
| lit_0x : forall c ds, c = "x" \/ c = "X" -> literal (String "0" (String c ds)) 16 ds
| lit_0o : forall c ds, c = "o" \/ c = "O" -> literal (String "0" (String c ds)) 8 ds
| lit_0b : forall c ds, c = "b" \/ c = "B" -> literal (String "0" (String c ds)) 2 ds
| lit_h : forall c ds, c = "h" \/ c = "H" -> literal (ds ++ String c EmptyString) 16 ds
| lit_o : forall c ds, c = "o" \/ c = "O" -> literal (ds ++ String c EmptyString) 8 ds
| lit_b : forall c ds, c = "b" \/ c = "B" -> literal (ds ++ String c EmptyString) 2 ds.

Definition decimal_digit (c : ascii) : Prop := exists d, digit_in 10 c = Some d.

(** A literal starts with a decimal digit. *)
Definition starts_with_digit (s : string) : Prop :=
  match s with String c _ => decimal_digit c | EmptyString => False end.

(** Characters that continue a number or name. *)
Definition letter_or_digit (c : ascii) : Prop :=
  exists i, In i (seq 48 10 ++ seq 65 26 ++ seq 97 26)%list /\ c = ascii_of_nat i.
Definition ends_number (rest : string) : Prop :=
  match rest with
  | EmptyString => True
  | String c _ => ~ letter_or_digit c /\ c <> "."
  end.
