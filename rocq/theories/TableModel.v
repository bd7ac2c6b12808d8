(** Model of custom string encodings: classes Trie and EncodingTable (Util/EncodingTable.{h,cpp}),
    the directive .loadtable and the strings of .string (Commands/CDirectiveData.cpp).

    Text and data are lists of bytes 0..255.  Reading the lines of the table file is in
    ReaderModel.v; here the file is given by its lines. *)

Require Import ZArith List Bool.
From Verif Require Import Ints Res.
Import ListNotations.
Local Open Scope Z_scope.

(** A char array as far as a C string goes: *text != 0 ends the loops of Trie. *)
Fixpoint cstr (l : list Z) : list Z :=
  match l with
  | [] => []
  | c :: l => if c =? 0 then [] else c :: cstr l
  end.

(** class Trie, EncodingTable.h 9-42.  A node is its value if it has one; the map from
    (node, character) to a node is an association list. *)
Record trie := mkTrie { tr_nodes : list (option nat); tr_lookup : list ((nat * Z) * nat) }.

(** Trie::Trie, EncodingTable.cpp 8-12 *)
Definition new_trie : trie := mkTrie [None] [].

Fixpoint find_edge (l : list ((nat * Z) * nat)) (n : nat) (c : Z) : option nat :=
  match l with
  | [] => None
  | ((n', c'), m) :: l => if Nat.eqb n n' && (c =? c') then Some m else find_edge l n c
  end.

(** Trie::insert: traverse existing nodes, 18-28 *)
Fixpoint descend (l : list ((nat * Z) * nat)) (node : nat) (text : list Z) : nat * list Z :=
  match text with
  | [] => (node, [])
  | c :: rest =>
      match find_edge l node c with
      | None => (node, text)
      | Some m => descend l m rest
      end
  end.

(** Add new nodes, 30-40 *)
Fixpoint extend (t : trie) (node : nat) (text : list Z) : trie * nat :=
  match text with
  | [] => (t, node)
  | c :: rest =>
      let m := List.length (tr_nodes t) in
      extend (mkTrie (tr_nodes t ++ [None]) (((node, c), m) :: tr_lookup t)) m rest
  end.

Fixpoint set_nth {A} (l : list A) (n : nat) (x : A) : list A :=
  match l, n with
  | [], _ => []
  | _ :: l, O => x :: l
  | y :: l, S n => y :: set_nth l n x
  end.

(** Trie::insert, 14-45 *)
Definition insert (t : trie) (text : list Z) (value : nat) : trie :=
  let '(node, rest) := descend (tr_lookup t) 0 (cstr text) in
  let '(t, node) := extend t node rest in
  mkTrie (set_nth (tr_nodes t) node (Some value)) (tr_lookup t).

Definition node_value (t : trie) (n : nat) : option nat := nth n (tr_nodes t) None.

(** The loop of Trie::findLongestPrefix, 52-65; [best]: the value of the last node that had one. *)
Fixpoint find_from (t : trie) (node : nat) (text : list Z) (best : option nat) : option nat :=
  let best := match node_value t node with Some v => Some v | None => best end in
  match text with
  | [] => best
  | c :: rest =>
      match find_edge (tr_lookup t) node c with
      | None => best
      | Some m => find_from t m rest best
      end
  end.

(** Trie::findLongestPrefix, 47-71; None: false is returned. *)
Definition find_longest (t : trie) (text : list Z) : option nat := find_from t 0 (cstr text) None.

(** struct TableEntry and class EncodingTable, EncodingTable.h 44-69 *)
Record entry := mkEntry { e_pos : nat; e_len : nat; e_value_len : nat }.
Record table := mkTable { t_hex : list Z; t_entries : list entry; t_trie : trie; t_term : entry }.

(** A zero-initialised EncodingTable. *)
Definition new_table : table := mkTable [] [] new_trie (mkEntry 0 0 0).

(** clear, 77-81 *)
Definition clear (t : table) : table := mkTable [] [] (t_trie t) (t_term t).

(** setTerminationEntry, 187-192 *)
Definition set_termination (t : table) (hex : list Z) : table :=
  mkTable (t_hex t ++ hex) (t_entries t) (t_trie t) (mkEntry (List.length (t_hex t)) (List.length hex) 0).

(** addEntry, 169-185 *)
Definition add_entry (t : table) (hex : list Z) (value : list Z) : table :=
  match value with
  | [] => t
  | _ =>
      mkTable (t_hex t ++ hex)
              (t_entries t ++ [mkEntry (List.length (t_hex t)) (List.length hex) (List.length value)])
              (insert (t_trie t) value (List.length (t_entries t))) (t_term t)
  end.

(** hexData[entry.hexPos+i] for i < hexLen; an index outside is undefined. *)
Definition hex_of (t : table) (e : entry) : res (list Z) :=
  if (e_pos e + e_len e <=? List.length (t_hex t))%nat
  then ROk (firstn (e_len e) (skipn (e_pos e) (t_hex t))) else RUb.

(** The loop of encodeString, 198-217; Some None: no match.  [RErr]: the bound was reached (every
    round with valueLen = 0 repeats for ever in the code). *)
Fixpoint encode_loop (fuel : nat) (t : table) (text : list Z) (acc : list Z) : res (option (list Z)) :=
  match fuel with
  | O => RErr
  | S fuel =>
      match text with
      | [] => ROk (Some acc)
      | _ =>
          match find_longest (t_trie t) text with
          | None => ROk None
          | Some i =>
              match nth_error (t_entries t) i with
              | None => RUb
              | Some e =>
                  do h <- hex_of t e;
                  encode_loop fuel t (skipn (e_value_len e) text) (acc ++ h)
              end
          end
      end
  end.

(** encodeString, 194-227: an empty ByteArray on failure *)
Definition encode_string (t : table) (text : list Z) (terminate : bool) : res (list Z) :=
  do r <- encode_loop (S (List.length text)) t text [];
  match r with
  | None => ROk []
  | Some out => if terminate then do h <- hex_of t (t_term t); ROk (out ++ h) else ROk out
  end.

(** encodeTermination, 229-240 *)
Definition encode_termination (t : table) : res (list Z) := hex_of t (t_term t).

(** parseHexString, 83-108, digit by digit; None: -1.  (tolower of a byte above 127 is not a hex
    digit.) *)
Definition hex_value (c : Z) : option Z :=
  let c := if (65 <=? c) && (c <=? 90) then c + 32 else c in
  if (97 <=? c) && (c <=? 102) then Some (c - 97 + 10)
  else if (48 <=? c) && (c <=? 57) then Some (c - 48) else None.
Fixpoint parse_hex (l : list Z) : option (list Z) :=
  match l with
  | [] => Some []
  | a :: rest =>
      match hex_value a, rest with
      | None, _ => None
      | Some _, [] => Some []                      (* size/2 drops an odd digit *)
      | Some x, b :: rest =>
          match hex_value b, parse_hex rest with
          | Some y, Some r => Some (Z.lor (u8 (Z.shiftl x 4)) y :: r)
          | _, _ => None
          end
      end
  end.

(** line.find('='), substr: without '=' both parts are the whole line, 143-146 *)
Fixpoint find_eq (l : list Z) : option (list Z * list Z) :=
  match l with
  | [] => None
  | c :: l =>
      if c =? 61 then Some ([], l)
      else match find_eq l with Some (a, b) => Some (c :: a, b) | None => None end
  end.
Definition split_eq (l : list Z) : list Z * list Z :=
  match find_eq l with Some p => p | None => (l, l) end.

Definition MAXHEXLENGTH : nat := 32.

(** The body of the loop of load, 122-164 *)
Definition load_line (t : table) (line : list Z) : table :=
  match line with
  | [] => t
  | c :: rest =>
      if c =? 42 then t
      else if c =? 47 then
        if (List.length rest =? 0)%nat || (2 * MAXHEXLENGTH <? List.length rest)%nat then t
        else match parse_hex rest with
             | None => t
             | Some h => set_termination t h
             end
      else
        let '(hex, value) := split_eq line in
        if (List.length hex =? 0)%nat || (List.length value =? 0)%nat || (2 * MAXHEXLENGTH <? List.length hex)%nat then t
        else match parse_hex hex with
             | None => t
             | Some h => add_entry t h value
             end
  end.

(** load, 110-167, of a readable file with these lines *)
Definition load (t : table) (lines : list (list Z)) : table :=
  fold_left load_line lines (set_termination (mkTable [] [] (t_trie t) (t_term t)) [0]).

(** TableCommand, CDirectiveData.cpp 16-37: each directive loads its own table; Validate copies it
    into Global.Table. *)
Definition table_command (lines : list (list Z)) : table := load new_table lines.
Definition validate_table (global : table) (lines : list (list Z)) : table := table_command lines.

(** The string case of CDirectiveData::encodeCustom, 178-185: the data and whether an error is
    queued. *)
Definition encode_custom_string (t : table) (text : list Z) : res (list Z * bool) :=
  do out <- encode_string t text false;
  ROk (out, (List.length out =? 0)%nat && (0 <? List.length text)%nat).
