(** Model of the directives of the architectures: the tables and functions of Archs/ARM/ArmParser.cpp 38-109,
    Archs/MIPS/MipsParser.cpp 130-223 and Archs/SuperH/ShParser.cpp 28-58, read by Parser::parseDirective,
    Parser/Parser.cpp 221-263.

    Parameters and lines are those of DirModel.  The rows have no flags.  The importers are two parameters: whether a
    file can be read as an ELF file or archive of such, and whether it can be read as PSX library.  The code that .msg stands
    for is in TplModel, that of .loadelf, .pool and the imports in other models.  The effect of .thumb, .arm,
    .resetdelay and .fixloaddelay on the parser is part of the command. *)

Require Import ZArith String Ascii List Bool.
From Verif Require Import Ints ExprModel LexModel SymModel DirModel.
Import ListNotations.
Local Open Scope string_scope.
Local Open Scope list_scope.

(** The functions of the tables *)
Inductive ahandler := KThumb | KArm | KPool | KMsg | KArmLabel | KThumbLabel | KResetDelay | KFixLoadDelay | KLoadElf | KMipsImport | KShImport.
(** armDirectives, ArmParser.cpp 97-104; mipsDirectives, MipsParser.cpp 212-218; shDirectives, ShParser.cpp 50-53;
    the invalid architecture has no table, Archs/Architecture.h 20 *)
Definition arch_table (c : cpu) : list (string * ahandler) :=
  match c with
  | CInvalid => []
  | CArm => [(".thumb", KThumb); (".arm", KArm); (".pool", KPool); (".msg", KMsg); (".definearmlabel", KArmLabel); (".definethumblabel", KThumbLabel)]
  | CMips => [(".resetdelay", KResetDelay); (".fixloaddelay", KFixLoadDelay); (".loadelf", KLoadElf); (".importobj", KMipsImport); (".importlib", KMipsImport)]
  | CSuperH => [(".importobj", KShImport); (".importlib", KShImport)]
  end.

(** The commands: ArmStateCommand, the alignment to 4 with the pool, the code of .msg, CDirectiveDefineLabel, SetIgnoreDelay and
    SetFixLoadDelay, DirectiveLoadMipsElf, DirectiveObjImport and DirectivePsxObjImport *)
Inductive importer := ByElf | ByPsx.
Inductive acmd :=
| AState (arm : bool)
| APool
| AMessage (text : arg)
| ALabel (name : string) (value : arg) (thumb : bool)
| AIgnoreDelay
| AFixLoadDelay
| ALoadElf (input : string) (output : option string)
| AImport (i : importer) (file : string) (ctor : option string).
(** The messages: those of DirModel, and MipsParser.cpp 185 *)
Inductive aerr := ADir (e : derr) | ANoCtor.
(** What a function gives: nothing, InvalidCommand or a command, with the messages and the parameters it leaves *)
Inductive given := GNone (errs : list derr) | GInvalid (err : aerr) (rest : list arg) | GCmd (c : acmd) (rest : list arg).

Section Texts.
  Variable text_of : value -> string.
  (** isSuccessfullyImported of DirectiveObjImport and of DirectivePsxObjImport *)
  Variables elf_ok psx_ok : string -> bool.
  (** Mips.GetVersion() == MARCH_PSX *)
  Variable psx : bool.

  (** A function that starts with parseExpressionList *)
  Definition alist (args : list arg) (min max : nat) (f : list arg -> given) : given :=
    match parseExpressionList args min (Some max) with (Some l, _) => f l | (None, errs) => GNone errs end.

  (** parseDirectiveMsg, ArmParser.cpp 84-95, up to the template *)
  Definition arm_msg (args : list arg) : given :=
    let (e, rest) := next_expression args in if loaded e then GCmd (AMessage e) rest else GNone [].
  (** parseDirectiveDefineArmLabel and -ThumbLabel, ArmParser.cpp 59-67, by DirectivesParser.cpp 622-653 *)
  Definition arm_label (thumb : bool) (args : list arg) : given :=
    match args with
    | PIdent n _ :: e :: rest =>
        if negb (loaded e) then GNone [] else if negb (valid_name n) then GNone [ELabelName] else GCmd (ALabel n e thumb) rest
    | _ => GNone []
    end.
  (** parseDirectiveLoadElf, MipsParser.cpp 142-160 *)
  Definition mips_loadelf (l : list arg) : given :=
    match l with
    | [] => GNone []
    | a :: r => match evaluateString text_of a true with
                | None => GNone []
                | Some f => match r with
                            | [b] => match evaluateString text_of b true with Some g => GCmd (ALoadElf f (Some g)) [] | None => GNone [] end
                            | _ => GCmd (ALoadElf f None) []
                            end
                end
    end.
  (** parseDirectiveImportObj, MipsParser.cpp 162-210 *)
  Definition mips_import (l : list arg) : given :=
    match l with
    | [] => GNone []
    | a :: r => match evaluateString text_of a true with
                | None => GNone []
                | Some f => match r with
                            | [b] => match evaluateIdentifier b with
                                     | None => GNone []
                                     | Some n => if psx then if elf_ok f then GCmd (AImport ByElf f (Some n)) [] else GInvalid ANoCtor []
                                                 else GCmd (AImport ByElf f (Some n)) []
                                     end
                            | _ => if psx then if psx_ok f then GCmd (AImport ByPsx f None) [] else GCmd (AImport ByElf f None) []
                                   else GCmd (AImport ByElf f None) []
                            end
                end
    end.
  (** parseDirectiveShImportObj, ShParser.cpp 28-48 *)
  Definition sh_import (l : list arg) : given :=
    match l with
    | [] => GNone []
    | a :: r => match evaluateString text_of a true with
                | None => GNone []
                | Some f => match r with
                            | [b] => match evaluateIdentifier b with None => GNone [] | Some n => GCmd (AImport ByElf f (Some n)) [] end
                            | _ => GCmd (AImport ByElf f None) []
                            end
                end
    end.

  (** The call, Parser.cpp 246; ArmParser.cpp 38-57 and MipsParser.cpp 130-140 read no parameters *)
  Definition acall (h : ahandler) (args : list arg) : given :=
    match h with
    | KThumb => GCmd (AState false) args
    | KArm => GCmd (AState true) args
    | KPool => GCmd APool args
    | KMsg => arm_msg args
    | KArmLabel => arm_label false args
    | KThumbLabel => arm_label true args
    | KResetDelay => GCmd AIgnoreDelay args
    | KFixLoadDelay => GCmd AFixLoadDelay args
    | KLoadElf => alist args 1 2 mips_loadelf
    | KMipsImport => alist args 1 2 mips_import
    | KShImport => alist args 1 2 sh_import
    end.

  (** parseDirective for such a table, Parser.cpp 221-263 *)
  Inductive aoutcome := AUnknown | AReported (errs : list aerr) | AGives (c : acmd).
  Definition arch_line (c : cpu) (name : string) (l : line) : aoutcome :=
    match find (fun e => String.eqb (fst e) name) (arch_table c) with
    | None => AUnknown
    | Some (_, h) =>
        let ends rest := match rest with [] => l_closed l | _ => false end in
        match acall h (l_args l) with
        | GNone errs => AReported (map ADir (match errs with [] => [EDirective] | _ => errs end))
        | GInvalid e rest => AReported (e :: if ends rest then [] else [ADir EUnterminated])
        | GCmd cmd rest => if ends rest then AGives cmd else AReported [ADir EUnterminated]
        end
    end.
End Texts.
