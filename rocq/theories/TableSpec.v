(** Encoding a text by a table of entries. *)

Require Import ZArith List Bool.
Import ListNotations.
Local Open Scope Z_scope.

(** The entries in the order they were given: text and bytes. *)
Definition entries := list (list Z * list Z).

(** The bytes given last for a text. *)
Definition latest (h : entries) (k b : list Z) : Prop :=
  exists h1 h2, h = h1 ++ (k, b) :: h2 /\ ~ In k (map fst h2).

Definition prefix (k s : list Z) : Prop := exists r, s = k ++ r.

(** k is the longest entry that the text s begins with. *)
Definition longest (h : entries) (k s : list Z) : Prop :=
  In k (map fst h) /\ prefix k s /\
  forall k', In k' (map fst h) -> prefix k' s -> (List.length k' <= List.length k)%nat.

(** The text is cut greedily. *)
Inductive encodes (h : entries) : list Z -> list Z -> Prop :=
| enc_nil : encodes h [] []
| enc_entry k b rest out :
    latest h k b -> longest h k (k ++ rest) -> encodes h rest out -> encodes h (k ++ rest) (b ++ out).

(** Entries have a text, and it has no NUL. *)
Definition good_entries (h : entries) : Prop := forall k b, In (k, b) h -> k <> [] /\ ~ In 0 k.

(** Table files. *)
Inductive table_line : Type :=
| Comment (text : list Z)
| Blank
| Terminator (b : list Z)
| Mapping (k b : list Z).

(** Hexadecimal digits, in either case. *)
Definition hex_digit (d c : Z) : Prop :=
  (0 <= d < 10 /\ c = d + 48) \/ (10 <= d < 16 /\ (c = d - 10 + 97 \/ c = d - 10 + 65)).
Inductive hex_text : list Z -> list Z -> Prop :=
| hex_nil : hex_text [] []
| hex_byte b bs c1 c2 cs : 0 <= b < 256 -> hex_digit (b / 16) c1 -> hex_digit (b mod 16) c2 -> hex_text bs cs ->
    hex_text (b :: bs) (c1 :: c2 :: cs).

(** How a line is written: 1 to 32 bytes, '=', text; '*' begins a comment, '/' the terminator. *)
Inductive written : table_line -> list Z -> Prop :=
| w_comment t : written (Comment t) (42 :: t)
| w_blank : written Blank []
| w_term b cs : hex_text b cs -> (1 <= List.length b <= 32)%nat -> written (Terminator b) (47 :: cs)
| w_map k b cs : hex_text b cs -> (1 <= List.length b <= 32)%nat -> k <> [] -> written (Mapping k b) (cs ++ 61 :: k).

Definition mappings (l : list table_line) : entries :=
  flat_map (fun x => match x with Mapping k b => [(k, b)] | _ => [] end) l.
(** The terminator given last; one zero byte if none is. *)
Definition terminator (l : list table_line) : list Z :=
  fold_left (fun acc x => match x with Terminator b => b | _ => acc end) l [0].
