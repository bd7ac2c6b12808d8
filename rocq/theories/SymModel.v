(** Model of the symbol table: Core/SymbolTable.h and Core/SymbolTable.cpp, the label naming of
    macro expansions (Parser/Parser.cpp 764-782) and the definition step of a label command.

    A label object (std::shared_ptr<Label>) is represented by its index in the vector [labels];
    the objects are never removed from it, so the index stands for the pointer until clear().
    Sections and file numbers are ints that are counted up from 0; their overflow is not modelled. *)

Require Import ZArith List String Ascii Bool.
From Verif Require Import LexModel.
Import ListNotations.
Local Open Scope char_scope.

(** ** Keys, SymbolTable.h 15-29 *)

(** SymbolKey: the name is lower-cased by the constructor (19-24). *)
Record symkey := mkKey { k_name : string; k_file : Z; k_section : Z }.
Definition make_key (name : string) (file section : Z) : symkey :=
  mkKey (lower_string name) file section.
(** Equality under operator<, SymbolTable.cpp 12-19: two keys are equivalent when all three
    components agree. *)
Definition key_eqb (a b : symkey) : bool :=
  Z.eqb (k_file a) (k_file b) && Z.eqb (k_section a) (k_section b)
  && String.eqb (k_name a) (k_name b).

(** symbol.string()[i] for i up to the size, which gives the terminator. *)
Definition nth_char (s : string) (i : nat) : ascii :=
  match String.get i s with Some c => c | None => "000" end.

(** setFileSectionValues, SymbolTable.cpp 47-63 *)
Definition set_file_section (name : string) (file section : Z) : Z * Z :=
  if Ascii.eqb (nth_char name 0) "@" then
    if negb (Ascii.eqb (nth_char name 1) "@") then (file, (-1)%Z) else ((-1)%Z, section)
  else ((-1)%Z, (-1)%Z).

(** isLocalSymbol and isStaticSymbol, SymbolTable.h 75-77 *)
Definition is_local_symbol (name : string) : bool :=
  Nat.leb 2 (String.length name) && Ascii.eqb (nth_char name 0) "@" && Ascii.eqb (nth_char name 1) "@".
Definition is_static_symbol (name : string) : bool :=
  Nat.leb 1 (String.length name) && Ascii.eqb (nth_char name 0) "@".

(** strchr(validSymbolCharacters, c) != nullptr, SymbolTable.cpp 10 and 131; strchr also finds the
    terminating '\0'. *)
Definition symbol_char (c : ascii) : bool :=
  is_alnum c || Ascii.eqb c "_" || Ascii.eqb c "." || Ascii.eqb c "000".
Fixpoint all_symbol_chars (s : string) : bool :=
  match s with EmptyString => true | String c r => symbol_char c && all_symbol_chars r end.

(** isValidSymbolName, SymbolTable.cpp 108-137 *)
Definition valid_name (s : string) : bool :=
  if String.eqb s "" || String.eqb s "@" || String.eqb s "@@" then false
  else
    let rest :=
      match s with
      | String "@" (String "@" r) => r
      | String "@" r => r
      | _ => s
      end in
    negb (is_digit (nth_char rest 0)) && all_symbol_chars rest.

(** ** The table, SymbolTable.h 31-68, 91-103 *)

(** class Label; [l_phys] merges physicalValue and physicalValueSet. *)
Record label := mkLabel {
  l_name : string; l_original : string; l_value : Z; l_phys : option Z;
  l_defined : bool; l_info : Z; l_section : Z }.
Definition new_label (name : string) (section : Z) : label :=
  mkLabel name name 0 None false 0 section.

(** SymbolInfo: type and index *)
Inductive syminfo := SLabel (i : nat) | SEqu (i : nat).

(** class SymbolTable: [t_symbols] is the std::map with the most recent insertion first. *)
Record table := mkTable {
  t_symbols : list (symkey * syminfo);
  t_labels : list label;
  t_equations : nat;
  t_unique : N;
  t_generated : list string }.
Definition empty_table : table := mkTable [] [] 0 0 [].

(** symbols.find(key) *)
Fixpoint find_key (k : symkey) (l : list (symkey * syminfo)) : option syminfo :=
  match l with
  | [] => None
  | (k', v) :: r => if key_eqb k k' then Some v else find_key k r
  end.

(** clear, SymbolTable.cpp 39-45: generatedLabels is kept. *)
Definition clear (t : table) : table := mkTable [] [] 0 0 (t_generated t).

(** getLabel, SymbolTable.cpp 65-95 *)
Definition get_label (t : table) (name : string) (file section : Z) : table * option nat :=
  if negb (valid_name name) then (t, None)
  else
    let '(f, s) := set_file_section name file section in
    let key := make_key name f s in
    match find_key key (t_symbols t) with
    | None =>
        let i := List.length (t_labels t) in
        let l := new_label name (if Z.eqb s section then s else (section + 1)%Z) in
        (mkTable ((key, SLabel i) :: t_symbols t) (t_labels t ++ [l]) (t_equations t)
                 (t_unique t) (t_generated t), Some i)
    | Some (SLabel i) => (t, Some i)
    | Some (SEqu _) => (t, None)
    end.

(** symbolExists, SymbolTable.cpp 97-106 *)
Definition symbol_exists (t : table) (name : string) (file section : Z) : bool :=
  if negb (valid_name name) then false
  else
    let '(f, s) := set_file_section name file section in
    match find_key (make_key name f s) (t_symbols t) with Some _ => true | None => false end.

(** addEquation, SymbolTable.cpp 148-164 *)
Definition add_equation (t : table) (name : string) (file section : Z) (index : nat) : table * bool :=
  if negb (valid_name name) then (t, false)
  else if symbol_exists t name file section then (t, false)
  else
    let '(f, s) := set_file_section name file section in
    (mkTable ((make_key name f s, SEqu index) :: t_symbols t) (t_labels t)
             (S (t_equations t)) (t_unique t) (t_generated t), true).

(** findEquation, SymbolTable.cpp 166-177 *)
Definition find_equation (t : table) (name : string) (file section : Z) : option nat :=
  let '(f, s) := set_file_section name file section in
  match find_key (make_key name f s) (t_symbols t) with
  | Some (SEqu i) => Some i
  | _ => None
  end.

(** ** Generated names *)

Definition hex_digit (n : N) : ascii :=
  if (n <? 10)%N then ascii_of_N (48 + n) else ascii_of_N (87 + n).
(** The digits of a size_t (at most 16 of them), most significant first; "0" for zero. *)
Fixpoint hex_digits (fuel : nat) (n : N) (acc : string) : string :=
  match fuel with
  | O => acc
  | S fuel =>
      let acc := String (hex_digit (n mod 16)) acc in
      if (n / 16 =? 0)%N then acc else hex_digits fuel (n / 16) acc
  end.
Fixpoint pad_zeros (n : nat) (s : string) : string :=
  match n with O => s | S n => String "0" (pad_zeros n s) end.
(** tfm::format("%08x", n) for a size_t: tinyformat prints the whole value, padded to 8 digits. *)
Definition format_08x (n : N) : string :=
  let d := hex_digits 16 n "" in pad_zeros (8 - String.length d) d.

(** getUniqueLabelName, SymbolTable.cpp 180-188; uniqueCount is a size_t and wraps at 2^64. *)
Definition unique_name (local : bool) (n : N) : string :=
  ((if local then "@@" else "") ++ "__armips_label_" ++ format_08x n ++ "__")%string.
Definition get_unique (t : table) (local : bool) : table * string :=
  let name := unique_name local (t_unique t) in
  (mkTable (t_symbols t) (t_labels t) (t_equations t) ((t_unique t + 1) mod 2 ^ 64)
           (name :: t_generated t), name).

(** isGeneratedLabel, SymbolTable.h 90: compares the spelling exactly. *)
Definition is_generated (t : table) (name : string) : bool :=
  existsb (String.eqb name) (t_generated t).

(** ** Defining labels *)

Fixpoint update {A} (i : nat) (f : A -> A) (l : list A) : list A :=
  match l, i with
  | [], _ => []
  | x :: r, O => f x :: r
  | x :: r, S i => x :: update i f r
  end.
(** Label::setDefined(true) and Label::setValue, SymbolTable.h 41, 46 *)
Definition assign (v : Z) (l : label) : label :=
  mkLabel (l_name l) (l_original l) v (l_phys l) true (l_info l) (l_section l).
(** The effect of a label definition on the table: getLabel, setDefined(true), setValue(v)
    (SymbolTable.cpp 197-205, Commands/CAssemblerLabel.cpp 18, 52, 77). *)
Definition define_label (t : table) (name : string) (file section v : Z) : table * option nat :=
  let '(t, r) := get_label t name file section in
  match r with
  | None => (t, None)
  | Some i => (mkTable (t_symbols t) (update i (assign v) (t_labels t)) (t_equations t)
                       (t_unique t) (t_generated t), Some i)
  end.

(** addLabels, SymbolTable.cpp 190-207; [section] is Global.Section, counted up for every label that
    is not local. *)
Fixpoint add_labels (t : table) (file section : Z) (defs : list (string * Z)) : table * Z :=
  match defs with
  | [] => (t, section)
  | (name, v) :: r =>
      if negb (valid_name name) then add_labels t file section r
      else
        let '(t', l) := define_label t name file section v in
        match l with
        | None => add_labels t' file section r
        | Some _ => add_labels t' file (if is_local_symbol name then section else section + 1)%Z r
        end
  end.

(** findSection, SymbolTable.cpp 209-225: section of the first label with the smallest distance in
    front of the address. *)
Fixpoint find_section_from (labels : list label) (address before diff : Z) : Z :=
  match labels with
  | [] => before
  | l :: r =>
      let d := (address - l_value l)%Z in
      if ((0 <=? d) && (d <? diff))%Z then find_section_from r address (l_section l) d
      else find_section_from r address before diff
  end.
Definition find_section (t : table) (address : Z) : Z :=
  find_section_from (t_labels t) address (-1) 0x7FFFFFFF.

(** ** Names of labels in macro expansions, Parser.cpp 764-781 and Tokenizer.cpp
    registerReplacement(identifier, string): the new name is lower-cased. *)

(** tfm::format("%08X"): upper-case digits; lower-casing afterwards gives the digits of %08x. *)
Definition macro_label_name (macro lab : string) (counter : N) : string :=
  lower_string
    (if is_local_symbol lab then
       "@@" ++ macro ++ "_" ++ String.substring 2 (String.length lab) lab ++ "_" ++ format_08x counter
     else if is_static_symbol lab then
       "@" ++ macro ++ "_" ++ String.substring 1 (String.length lab) lab ++ "_" ++ format_08x counter
     else macro ++ "_" ++ lab ++ "_" ++ format_08x counter)%string.
