(** Model of class SymbolData, Core/SymbolData.{h,cpp}: what the commands announce for the no$gba
    symbol file, and the list that is written.

    File objects are numbers.  The formatted numbers (%08X, %04X) and the lower-casing of version 1
    are parameters; the file itself (a line per entry) is not modelled further. *)

Require Import ZArith List Bool String Ascii.
From Verif Require Import Ints Res.
Import ListNotations.
Local Open Scope Z_scope.

(** SymbolData::DataType, SymbolData.h 77 *)
Inductive data_type := Data8 | Data16 | Data32 | Data64 | DataAscii.
Definition type_rank (t : data_type) : Z :=
  match t with Data8 => 0 | Data16 => 1 | Data32 => 2 | Data64 => 3 | DataAscii => 4 end.

(** SymDataModule, SymbolData.h 62-68 *)
Record module := mkModule {
  m_file : option nat; m_symbols : list (Z * string); m_functions : list (Z * Z); m_data : list (Z * Z * data_type) }.

(** The members, SymbolData.h 94-105; [s_errors]: the errors printed. *)
Record symdata := mkSym {
  s_enabled : bool; s_modules : list module; s_current : nat; s_function : option nat; s_errors : nat }.

(** clear, SymbolData.cpp 14-26 *)
Definition sym_new : symdata := mkSym true [mkModule None [] [] []] 0 None 0.

Fixpoint update_nth {A} (n : nat) (f : A -> A) (l : list A) {struct l} : list A :=
  match l, n with
  | [], _ => []
  | x :: l, O => f x :: l
  | x :: l, S n => x :: update_nth n f l
  end.
Definition in_module (s : symdata) (f : module -> module) : symdata :=
  mkSym (s_enabled s) (update_nth (s_current s) f (s_modules s)) (s_current s) (s_function s) (s_errors s).

(** addLabel, 124-140 *)
Definition add_label (s : symdata) (a : Z) (n : string) : symdata :=
  if s_enabled s then
    in_module s (fun m =>
      if existsb (fun '(a', n') => (a' =? a) && String.eqb n' n) (m_symbols m) then m
      else mkModule (m_file m) (m_symbols m ++ [(a, n)]) (m_functions m) (m_data m))
  else s.

(** SymDataData::operator<, SymbolData.h 50-59 *)
Definition data_lt (x y : Z * Z * data_type) : bool :=
  let '(a, n, t) := x in let '(a', n', t') := y in
  if negb (a =? a') then a <? a' else if negb (n =? n') then n <? n' else type_rank t <? type_rank t'.

(** std::set::insert *)
Fixpoint set_insert (x : Z * Z * data_type) (l : list (Z * Z * data_type)) : list (Z * Z * data_type) :=
  match l with
  | [] => [x]
  | y :: l => if data_lt x y then x :: y :: l else if data_lt y x then y :: set_insert x l else y :: l
  end.

(** addData, 142-152 *)
Definition add_data (s : symdata) (a n : Z) (t : data_type) : symdata :=
  if s_enabled s then
    in_module s (fun m => mkModule (m_file m) (m_symbols m) (m_functions m) (set_insert (a, n, t) (m_data m)))
  else s.

Definition file_eqb (x y : option nat) : bool :=
  match x, y with None, None => true | Some a, Some b => Nat.eqb a b | _, _ => false end.
Fixpoint find_module (f : nat) (l : list module) (i : nat) : option nat :=
  match l with
  | [] => None
  | m :: l => if file_eqb (m_file m) (Some f) then Some i else find_module f l (S i)
  end.

(** startModule, 166-182 *)
Definition start_module (s : symdata) (f : nat) : symdata :=
  match find_module f (s_modules s) 0 with
  | Some i => mkSym (s_enabled s) (s_modules s) i (s_function s) (s_errors s)
  | None => mkSym (s_enabled s) (s_modules s ++ [mkModule (Some f) [] [] []]) (List.length (s_modules s))
                  (s_function s) (s_errors s)
  end.

(** endModule, 184-202 *)
Definition end_module (s : symdata) (f : nat) : symdata :=
  match nth_error (s_modules s) (s_current s) with
  | None => s
  | Some m =>
      if negb (file_eqb (m_file m) (Some f)) then s
      else if Nat.eqb (s_current s) 0 then
        mkSym (s_enabled s) (s_modules s) (s_current s) (s_function s) (S (s_errors s))
      else
        match s_function s with
        | Some _ => mkSym (s_enabled s) (s_modules s) 0 None (S (s_errors s))
        | None => mkSym (s_enabled s) (s_modules s) 0 None (s_errors s)
        end
  end.

(** endFunction, 220-231: the index is used in the current module, whichever that is now. *)
Definition end_function (s : symdata) (a : Z) : res symdata :=
  match s_function s with
  | None => ROk (mkSym (s_enabled s) (s_modules s) (s_current s) None (S (s_errors s)))
  | Some i =>
      match nth_error (s_modules s) (s_current s) with
      | None => RUb
      | Some m =>
          if (i <? List.length (m_functions m))%nat then
            let s := in_module s (fun m => mkModule (m_file m) (m_symbols m)
                       (update_nth i (fun '(b, _) => (b, u64 (a - b))) (m_functions m)) (m_data m)) in
            ROk (mkSym (s_enabled s) (s_modules s) (s_current s) None (s_errors s))
          else RUb
      end
  end.

(** startFunction, 204-218 *)
Definition start_function (s : symdata) (a : Z) : res symdata :=
  do s <- match s_function s with Some _ => end_function s a | None => ROk s end;
  match nth_error (s_modules s) (s_current s) with
  | None => RUb
  | Some m =>
      let i := List.length (m_functions m) in
      let s := in_module s (fun m => mkModule (m_file m) (m_symbols m) (m_functions m ++ [(a, 0)]) (m_data m)) in
      ROk (mkSym (s_enabled s) (s_modules s) (s_current s) (Some i) (s_errors s))
  end.

(** setEnabled, SymbolData.h 84 *)
Definition set_enabled (s : symdata) (b : bool) : symdata :=
  mkSym b (s_modules s) (s_current s) (s_function s) (s_errors s).

Inductive sym_op :=
| SLabel (a : Z) (n : string) | SData (a n : Z) (t : data_type) | SStartModule (f : nat) | SEndModule (f : nat)
| SStart (a : Z) | SEnd (a : Z) | SEnabled (b : bool).
Definition sym_step (s : symdata) (o : sym_op) : res symdata :=
  match o with
  | SLabel a n => ROk (add_label s a n)
  | SData a n t => ROk (add_data s a n t)
  | SStartModule f => ROk (start_module s f)
  | SEndModule f => ROk (end_module s f)
  | SStart a => start_function s a
  | SEnd a => end_function s a
  | SEnabled b => ROk (set_enabled s b)
  end.
Fixpoint sym_run (s : symdata) (ops : list sym_op) : res symdata :=
  match ops with
  | [] => ROk s
  | o :: ops => do s <- sym_step s o; sym_run s ops
  end.

(** std::string operator<: bytes compared as unsigned *)
Fixpoint string_lt (x y : string) : bool :=
  match x, y with
  | EmptyString, EmptyString => false
  | EmptyString, _ => true
  | _, EmptyString => false
  | String a x, String b y =>
      if (N_of_ascii a <? N_of_ascii b)%N then true
      else if (N_of_ascii b <? N_of_ascii a)%N then false else string_lt x y
  end.
(** NocashSymEntry::operator<, SymbolData.cpp 33-38 *)
Definition entry_lt (x y : Z * string) : bool :=
  let '(a, n) := x in let '(a', n') := y in if negb (a =? a') then a <? a' else string_lt n n'.

(** std::sort *)
Fixpoint sort_insert (x : Z * string) (l : list (Z * string)) : list (Z * string) :=
  match l with
  | [] => [x]
  | y :: l => if entry_lt y x then y :: sort_insert x l else x :: y :: l
  end.
Definition sort_entries (l : list (Z * string)) : list (Z * string) := fold_right sort_insert [] l.

Section Write.
  Variable hex8 hex4 : Z -> string.      (* %08X, %04X *)
  Variable lower_text : string -> string.
  Variable version : Z.

  (** The size of the first function at the address, 53-61 *)
  Definition function_size (fs : list (Z * Z)) (a : Z) : Z :=
    match find (fun '(b, _) => b =? a) fs with Some (_, n) => n | None => 0 end.

  (** 63-75 *)
  Definition symbol_entry (m : module) (s : Z * string) : Z * string :=
    let '(a, n) := s in
    let size := function_size (m_functions m) a in
    let text := if negb (size =? 0) && (version >=? 2) then (n ++ "," ++ hex8 size)%string else n in
    (a, if version =? 1 then lower_text text else text).

  (** 78-103 *)
  Definition data_text (t : data_type) : string :=
    match t with Data8 => ".byt:" | Data16 => ".wrd:" | Data32 => ".dbl:" | Data64 => ".dbl:" | DataAscii => ".asc:" end.
  Definition data_entry (d : Z * Z * data_type) : Z * string :=
    let '(a, n, t) := d in (a, (data_text t ++ hex4 n)%string).

  (** writeNocashSym, 41-107: the entries in the order they are written *)
  Definition written_entries (s : symdata) : list (Z * string) :=
    sort_entries (flat_map (fun m => map (symbol_entry m) (m_symbols m) ++ map data_entry (m_data m)) (s_modules s)).
End Write.
