(** Model of the command line: parseArguments and runFromCommandLine, Main/CommandLineInterface.cpp, and of what runArmips,
    Core/Assembler.cpp 147-211, does with the equs and labels given there.

    Simplified: the comparisons of parseArguments are grouped by the number of words an option takes; the names of the
    options differ, so the order does not matter.  Directories are strings, [chdir d n] is fs::current_path(n) with the
    current directory [d] (None: an error) and [file_exists d n] is fs::exists of the name [n], made absolute.  Messages
    are not kept, apart from whether there was an error; the warning for -time is not one here.  The value of an equ is a
    single line. *)

Require Import ZArith List String Ascii Bool.
From Coq Require Import Floats.SpecFloat.
From Verif Require Import Ints Res ParseModel LexModel SymModel ExpandModel.
Import ListNotations.
Local Open Scope string_scope.

(** ArmipsArguments: Core/Assembler.h 32-66, the fields the command line sets, and the current directory. *)
Record settings := mkSettings {
  s_temp : string; s_sym : string; s_version : Z; s_strict : bool; s_stat : bool;
  s_equs : list (string * string); s_labels : list (string * Z); s_input : string; s_dir : string }.
(** ArmipsArguments::ArmipsArguments, Assembler.h 56-65. *)
Definition initial (dir : string) : settings := mkSettings "" "" 0 false false [] [] "" dir.

Definition set_temp (f : string) (s : settings) : settings :=
  mkSettings f (s_sym s) (s_version s) (s_strict s) (s_stat s) (s_equs s) (s_labels s) (s_input s) (s_dir s).
Definition set_sym (f : string) (v : Z) (s : settings) : settings :=
  mkSettings (s_temp s) f v (s_strict s) (s_stat s) (s_equs s) (s_labels s) (s_input s) (s_dir s).
Definition set_strict (s : settings) : settings :=
  mkSettings (s_temp s) (s_sym s) (s_version s) true (s_stat s) (s_equs s) (s_labels s) (s_input s) (s_dir s).
Definition set_stat (s : settings) : settings :=
  mkSettings (s_temp s) (s_sym s) (s_version s) (s_strict s) true (s_equs s) (s_labels s) (s_input s) (s_dir s).
Definition push_equ (n v : string) (s : settings) : settings :=
  mkSettings (s_temp s) (s_sym s) (s_version s) (s_strict s) (s_stat s) (s_equs s ++ [(n, v)])%list (s_labels s) (s_input s) (s_dir s).
Definition push_label (n : string) (v : Z) (s : settings) : settings :=
  mkSettings (s_temp s) (s_sym s) (s_version s) (s_strict s) (s_stat s) (s_equs s) (s_labels s ++ [(n, v)])%list (s_input s) (s_dir s).
Definition set_input (f : string) (s : settings) : settings :=
  mkSettings (s_temp s) (s_sym s) (s_version s) (s_strict s) (s_stat s) (s_equs s) (s_labels s) f (s_dir s).
Definition set_dir (d : string) (s : settings) : settings :=
  mkSettings (s_temp s) (s_sym s) (s_version s) (s_strict s) (s_stat s) (s_equs s) (s_labels s) (s_input s) d.

(** The find_if of 78-79, 102-103 and 143-144: names are compared as they are written. *)
Definition given {A} (n : string) (l : list (string * A)) : bool := existsb (fun x => String.eqb n (fst x)) l.

(** stringToInt(value, 0, value.size(), ...), 152: of an empty text the character before the first is read. *)
Definition label_value (v : string) : res (option Z) :=
  match v with EmptyString => RUb | _ => string_to_int v 0 (String.length v) end.

(** 68-88, 91-112 *)
Definition add_equ (n v : string) (s : settings) : res settings :=
  if negb (valid_name n) then RErr else if given n (s_equs s) then RErr else ROk (push_equ n v s).
(** 132-160 *)
Definition add_definition (n v : string) (s : settings) : res settings :=
  if negb (valid_name n) then RErr
  else if given n (s_labels s) then RErr
  else do z <- label_value v;
       match z with None => RErr | Some z => ROk (push_label n z s) end.
(** tfm::format("\"%s\"", ...), 109 *)
Definition quoted (v : string) : string := String "034" (v ++ String "034" EmptyString).

Section Machine.
  Variable chdir : string -> string -> option string.
  Variable file_exists : string -> string -> bool.

  (** The loop, 36-181.  [RErr]: return false. *)
  Fixpoint parse_args (flags : bool) (args : list string) (s : settings) : res settings :=
    match args with
    | [] => ROk s
    | a :: rest =>
      if flags && Ascii.eqb (nth_char a 0) "-" then
        if String.eqb a "--" then parse_args false rest s
        else if String.eqb a "-erroronwarning" then parse_args flags rest (set_strict s)
        else if String.eqb a "-stat" then parse_args flags rest (set_stat s)
        else if String.eqb a "-time" then parse_args flags rest s
        else
          match rest with
          | [] => RErr
          | x :: rest =>
            if String.eqb a "-temp" then parse_args flags rest (set_temp x s)
            else if String.eqb a "-sym" then parse_args flags rest (set_sym x 1 s)
            else if String.eqb a "-sym2" then parse_args flags rest (set_sym x 2 s)
            else if String.eqb a "-root" then
              match chdir (s_dir s) x with None => RErr | Some d => parse_args flags rest (set_dir d s) end
            else
              match rest with
              | [] => RErr
              | y :: rest =>
                if String.eqb a "-equ" then do s <- add_equ x y s; parse_args flags rest s
                else if String.eqb a "-strequ" then do s <- add_equ x (quoted y) s; parse_args flags rest s
                else if String.eqb a "-definelabel" then do s <- add_definition x y s; parse_args flags rest s
                else RErr
              end
          end
      else if String.eqb (s_input s) "" then parse_args flags rest (set_input a s)
      else RErr
    end.

  (** parseArguments, 32-202, for the words after the name of the program. *)
  Definition parse_arguments (dir : string) (args : list string) : res settings :=
    do s <- parse_args true args (initial dir);
    if String.eqb (s_input s) "" then RErr
    else if file_exists (s_dir s) (s_input s) then ROk s else RErr.

  (** runFromCommandLine, 204-222; [run]: runArmips.  The result is the exit code. *)
  Definition exit_code (run : settings -> res bool) (dir : string) (args : list string) : res Z :=
    match parse_arguments dir args with
    | ROk s => do ok <- run s; ROk (if ok : bool then 0 else 1)%Z
    | RErr => ROk 1%Z
    | RUb => RUb
    end.
End Machine.

(** ** The equs and labels of the command line: runArmips, Assembler.cpp 188-205 *)
Section Start.
  Variable strtod : string -> option spec_float.
  (** Parser::addEquation with the tokens of the text (ExpandModel.define_equ); FileNum and Section are 0.  [RErr]: an error, or
      the replacement does not end within [fuel] steps. *)
  Fixpoint start_equs (fuel : nat) (q : equs) (l : list (string * string)) : res equs :=
    match l with
    | [] => ROk q
    | (n, v) :: l =>
      do ts <- tokenize strtod v;
      match define_equ fuel q n 0 0 ts with None => RErr | Some q => start_equs fuel q l end
    end.
  Definition start (fuel : nat) (s : settings) : res (equs * Z) :=
    do q <- start_equs fuel no_equs (s_equs s);
    let '(t, section) := add_labels (q_table q) 0 0 (s_labels s) in ROk (mkEqus t (q_values q), section).

  (** For comparison, NAME equ VALUE in a source file: Parser::checkEquLabel, Parser.cpp 344-395, outside of blocks and macros,
      for the tokens of the line: the name, TEqu and the text of the value. *)
  Definition source_equ (fuel : nat) (q : equs) (line : string) (file section : Z) : res equs :=
    do ts <- tokenize strtod line;
    match ts with
    | [TIdent n; TEqu; TEquValue v; TSeparator] =>
      if negb (valid_name n) then RErr
      else if symbol_exists (q_table q) n file section then RErr
      else do vs <- tokenize strtod v;
           match define_equ fuel q n file section vs with None => RErr | Some q => ROk q end
    | _ => RErr
    end.
End Start.
