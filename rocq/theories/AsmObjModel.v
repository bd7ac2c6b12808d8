(** An ELF object imported by a program: what ElfModel says about relocating it, as the [object] of a command of AsmModel.

    DirectiveObjImport, Commands/CDirectiveFile.cpp 512-549, and getLabel and setValue of Core/ELF/ElfRelocator.cpp 370-388
    and 461-462.  Labels are numbers in AsmModel and names in ElfModel; [number] is the symbol table, [kinds] whether a label
    is a data label and its information (both do not change while validating).  Simplified: an external symbol that is
    exported by another file of the same import has the value it has before the import is relocated again; when nothing
    moves the two are the same.  [ctors] has the labels of the sections with constructors (number of the file, index of the
    section; init, ElfRelocator.cpp 179-190).  Without a function for the constructors nothing can refer to them (their names
    are made up), and they are left out.  Of the function itself (Archs/*/*ElfRelocator.cpp, generateCtorStub) the commands
    before the table are not given here; that it ends with the label of the table and the table is. *)

Require Import ZArith List Bool String.
From Verif Require Import Ints Res FileModel AllocModel AsmModel.
Require Verif.ElfModel.
Import ListNotations.
Local Open Scope Z_scope.

Section Import.
  Variable m : ElfModel.machine.
  Variable fs : list ElfModel.efile.
  Variable number : string -> option nat.
  Variable kinds : nat -> bool * Z.
  Variable ctors : nat -> Z -> option nat.

  (** getLabel and isDefined: ElfRelocator.cpp 370-388 *)
  Definition external (L : labels) (name : string) : option ElfModel.elabel :=
    match number name with
    | Some k => if l_def (L k) then Some (ElfModel.mkLabel (l_val (L k)) (fst (kinds k)) (snd (kinds k))) else None
    | None => None
    end.
  (** sym.label of the exported symbols in their order, 225-277; init, 204-219, takes those that [ElfModel.is_exported] has *)
  Definition exported_names : list string := map ElfModel.sy_name (flat_map (fun f => filter ElfModel.is_exported (ElfModel.ef_symtab f)) fs).
  Fixpoint given_to (names : list string) (values : list Z) : list (nat * Z) :=
    match names, values with
    | n :: names, v :: values => match number n with Some k => (k, v) :: given_to names values | None => given_to names values end
    | _, _ => []
    end.
  (** entry.label of the sections: 309-310 *)
  Fixpoint labelled (i : nat) (ps : list ElfModel.placed) : list (nat * Z) :=
    match ps with
    | [] => []
    | p :: ps =>
        flat_map (fun x : Z * Z => match ctors i (fst x) with Some k => [(k, snd x)] | None => [] end) (ElfModel.p_offsets p) ++ labelled (S i) ps
    end.
  (** relocate: 471-492 *)
  Definition elf_object : object := fun L a =>
    match ElfModel.relocate m (external L) a fs with
    | ROk (out, size, ps, ok) => Some (mkObj out size (given_to exported_names (flat_map ElfModel.p_symbols ps)) (labelled 0 ps) (negb ok))
    | RErr | RUb => None
    end.
End Import.

(** The table with the start and the end of each constructor section: MipsElfRelocator.cpp 112-119, ArmElfRelocator.cpp
    210-217, ShElfRelocator.cpp 85-92; a label and the size of its section each. *)
Definition ctor_table (l : list (nat * Z)) : nat -> view -> list Z * bool := fun _ v =>
  (flat_map (fun x : nat * Z => [l_val (v_labels v (fst x)); s64 (l_val (v_labels v (fst x)) + snd x)]) l, false).
(** generateCtor, ElfRelocator.cpp 272-279, with the end of the templates: MipsElfRelocator.cpp 104-105, ShElfRelocator.cpp 74-76 *)
Definition ctor_stub (name : nat) (body : src) (table : nat) (l : list (nat * Z)) : src :=
  CFunction name (CSeq body (CSeq (CLabel table None) (CData 4 (ctor_table l)))).
