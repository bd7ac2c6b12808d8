(** The symbols that an import gives to the source: ElfRelocator::exportSymbols, Core/ELF/ElfRelocator.cpp 225-270.

    The files of an import are taken one after the other, so the symbols are one list; exportSymbols is called once,
    in the constructors of DirectiveObjImport (Commands/CDirectiveFile.cpp 512-528), so no symbol has a label before.  The
    symbol table is seen at the keys that getLabel uses for the file -1 and the section -1 (Core/SymbolTable.cpp 65-95): for a
    name without @ this is the table of the global names.  Creating a label that is not defined has no effect here. *)

Require Import ZArith String Ascii List Bool.
From Verif Require Import LexModel SymModel ElfModel.
Import ListNotations.
Local Open Scope Z_scope.
Local Open Scope list_scope.

(** A symbol of a file, ElfRelocator.h 50-59, of which section and size have no part in this *)
Record xsym := mkX { x_name : string; x_address : Z; x_type : Z }.
(** A label that is defined: value, info, data, updateInfo and original name, SymbolTable.h 31-68.  No info: it comes from a
    field that was never set, RelocationData::targetSymbolInfo, ElfFile.h 122 *)
Record xlabel := mkXL { xl_value : Z; xl_info : option Z; xl_data : bool; xl_update : bool; xl_original : string }.
(** The symbol table: nothing or a label that is not defined, an equ, a label *)
Inductive xentry := XFree | XEqu | XLabel (l : xlabel).
Definition xtable := string -> xentry.
Definition xset (t : xtable) (n : string) (e : xentry) : xtable := fun m => if String.eqb m n then e else t m.

(** The messages, ElfRelocator.cpp 242 and 249 *)
Inductive xerr := XInvalid (name : string) | XDefined (name : string).

(** STT_OBJECT, elf_common *)
Definition STT_OBJECT : Z := 1.

(** targetSymbolInfo after setSymbolAddress: ArmElfRelocator.cpp 160-170 sets it for functions only, MipsElfRelocator.cpp 73-77 and
    ShElfRelocator.cpp 37-41 never *)
Definition info_of (m : machine) (s : xsym) : option Z :=
  match m with
  | Arm _ => if x_type s =? STT_FUNC then Some (snd (setSymbolAddress m (x_address s) (x_type s))) else None
  | _ => None
  end.
(** The label of an exported symbol, 254-265 *)
Definition label_of (m : machine) (s : xsym) : xlabel :=
  mkXL 0 (info_of m s) (x_type s =? STT_OBJECT) false (x_name s).

(** One symbol, 231-266: the table, the symbol and the messages *)
Definition export1 (m : machine) (t : xtable) (s : xsym) : xtable * xsym * list xerr :=
  let n := lower_string (x_name s) in
  if negb (valid_name n) then (t, s, [XInvalid (x_name s)])
  else match t n with
       | XEqu => (t, s, [XInvalid (x_name s)])
       | XLabel _ => (t, s, [XDefined (x_name s)])
       | XFree => (xset t n (XLabel (label_of m s)), mkX (x_name s) (fst (setSymbolAddress m (x_address s) (x_type s))) (x_type s), [])
       end.
(** The loops, 229-267 *)
Fixpoint export (m : machine) (t : xtable) (l : list xsym) : xtable * list xsym * list xerr :=
  match l with
  | [] => (t, [], [])
  | s :: l =>
    let '(t1, s1, e1) := export1 m t s in
    let '(t2, l2, e2) := export m t1 l in
    (t2, s1 :: l2, e1 ++ e2)
  end.
(** The result of exportSymbols, 269; the messages make the assembly fail *)
Definition exportSymbols (m : machine) (t : xtable) (files : list (list xsym)) : xtable * list xsym * list xerr := export m t (concat files).
