(** What a byte buffer is to its user: a list of bytes, some of which may be unspecified. *)

Require Import ZArith List.
From Verif Require Import Ints.
Import ListNotations.

(** The n-byte representation of a value modulo 256^n. *)
Fixpoint le_bytes (n : nat) (v : Z) : list Z :=
  match n with O => [] | S n => (v mod 256)%Z :: le_bytes n (v / 256)%Z end.
Definition encode_bytes (big : bool) (n : nat) (v : Z) : list Z :=
  if big then rev (le_bytes n v) else le_bytes n v.

(** The number that bytes spell, least significant first. *)
Fixpoint number (l : list Z) : Z := match l with [] => 0 | b :: r => b + 256 * number r end%Z.

(** Overwriting part of a list. *)
Definition overwrite {A} (l : list A) (pos : nat) (x : list A) : list A :=
  firstn pos l ++ x ++ skipn (pos + List.length x) l.

(** Operations on a buffer; [None] in a list is an unspecified byte. *)
Inductive op :=
| Append (l : list Z)
| AppendSelf
| Reserve (n : nat) (v : Z)
| AlignSize (n : nat)
| Resize (n : nat)
| Clear
| ReplaceBytes (pos : nat) (l : list Z)
| ReplaceWord (pos : nat) (w : Z) (big : bool)
| ReplaceDword (pos : nat) (w : Z) (big : bool)
| Mid (start n : nat)
| MidToEnd (start : nat)
| Left (n : nat)
| Right (n : nat).

(** What the operations do to the list of bytes. *)
Definition spec (o : op) (s : list (option Z)) : list (option Z) :=
  match o with
  | Append l => s ++ map Some l
  | AppendSelf => s ++ s
  | Reserve n v => s ++ repeat (Some v) n
  | AlignSize n =>
      match n with
      | O => s
      | _ => s ++ repeat (Some 0%Z) ((n - List.length s mod n) mod n)
      end
  | Resize n => firstn n s ++ repeat None (n - List.length s)
  | Clear => []
  | ReplaceBytes pos l => overwrite s pos (map Some l)
  | ReplaceWord pos w big =>
      if Nat.leb (pos + 2) (List.length s) then overwrite s pos (map Some (encode_bytes big 2 w)) else s
  | ReplaceDword pos w big =>
      if Nat.leb (pos + 4) (List.length s) then overwrite s pos (map Some (encode_bytes big 4 w)) else s
  | Mid start n => firstn n (skipn start s)
  | MidToEnd start => skipn start s
  | Left n => firstn n s
  | Right n => skipn (List.length s - n) s
  end.

(** Byte positions that are written or read must exist. *)
Definition allowed (o : op) (s : list (option Z)) : Prop :=
  match o with
  | ReplaceBytes pos l => pos + List.length l <= List.length s
  | Mid start n => start + n <= List.length s
  | MidToEnd start => start <= List.length s
  | Left n | Right n => n <= List.length s
  | _ => True
  end.
