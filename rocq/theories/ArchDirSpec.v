(** What the manual says about the directives of the architectures. *)

Require Import ZArith String Ascii List Bool.
From Verif Require Import ExprModel LexModel SymModel DirModel DirSpec ArchDirModel.
Import ListNotations.
Local Open Scope string_scope.
Local Open Scope list_scope.

Section Manual.
  Variable text_of : value -> string.
  (** The files that are ELF files or archives of them, and those that are PSX libraries; the PSX is the machine *)
  Variables elf_file psx_file : string -> bool.
  Variable psx : bool.

  (** Where imports take their file from: PSX libraries first if the machine is the PSX and no constructor function is wanted.  There is no
      constructor function for other than ELF files. *)
  Inductive imports (c : cpu) : string -> option string -> importer -> Prop :=
  | im_sh : forall f n, c = CSuperH -> imports c f n ByElf
  | im_mips : forall f n, c = CMips -> psx = false -> imports c f n ByElf
  | im_psx : forall f, c = CMips -> psx = true -> psx_file f = true -> imports c f None ByPsx
  | im_psx_elf : forall f, c = CMips -> psx = true -> psx_file f = false -> imports c f None ByElf
  | im_psx_ctor : forall f n, c = CMips -> psx = true -> elf_file f = true -> imports c f (Some n) ByElf.

  Inductive arch_says : cpu -> string -> list arg -> acmd -> Prop :=
  | a_thumb : arch_says CArm ".thumb" [] (AState false)
  | a_arm : arch_says CArm ".arm" [] (AState true)
  | a_pool : arch_says CArm ".pool" [] APool
  | a_msg : forall a, readable a -> arch_says CArm ".msg" [a] (AMessage a)
  | a_armlabel : forall n v a, valid_name n = true -> readable a -> arch_says CArm ".definearmlabel" [PIdent n v; a] (ALabel n a false)
  | a_thumblabel : forall n v a, valid_name n = true -> readable a -> arch_says CArm ".definethumblabel" [PIdent n v; a] (ALabel n a true)
  | a_resetdelay : arch_says CMips ".resetdelay" [] AIgnoreDelay
  | a_fixloaddelay : arch_says CMips ".fixloaddelay" [] AFixLoadDelay
  | a_loadelf : forall a f, spelled text_of a f -> arch_says CMips ".loadelf" [a] (ALoadElf f None)
  | a_loadelf_output : forall a b f g, spelled text_of a f -> spelled text_of b g -> arch_says CMips ".loadelf" [a; b] (ALoadElf f (Some g))
  | a_import : forall c n a f i, In n [".importobj"; ".importlib"] -> spelled text_of a f -> imports c f None i ->
      arch_says c n [a] (AImport i f None)
  | a_import_ctor : forall c n a f m v i, In n [".importobj"; ".importlib"] -> spelled text_of a f -> imports c f (Some m) i ->
      arch_says c n [a; PIdent m v] (AImport i f (Some m)).
End Manual.
