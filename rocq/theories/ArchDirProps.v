(** Property theorems: C102 (the directives of the architectures). *)

Require Import ZArith String Ascii List Bool Lia.
From Verif Require Import ExprModel LexModel SymModel DirModel DirSpec ArchDirModel ArchDirSpec ArchDirProofs.
Import ListNotations.
Local Open Scope string_scope.
Local Open Scope list_scope.

(** A line gives a command exactly if it ends after parameters that have a form of the manual, and then that command. *)
Theorem C102_line : forall text_of elf_file psx_file psx c name l cmd,
  arch_line text_of elf_file psx_file psx c name l = AGives cmd <->
  l_closed l = true /\ arch_says text_of elf_file psx_file psx c name (l_args l) cmd.
Proof. exact line_iff. Qed.
(** On the PSX an ELF object is taken if the file is no PSX library. *)
Example C102_line_ex : arch_says (fun _ => "") (fun _ => true) (fun _ => false) true CMips ".importobj" [PString "a.o"] (AImport ByElf "a.o" None) /\
  arch_line (fun _ => "") (fun _ => true) (fun _ => false) true CMips ".importobj" (mkLine [PString "a.o"] true) = AGives (AImport ByElf "a.o" None) /\
  arch_line (fun _ => "") (fun _ => true) (fun _ => true) true CMips ".importobj" (mkLine [PString "a.lib"] true) = AGives (AImport ByPsx "a.lib" None) /\
  arch_line (fun _ => "") (fun _ => true) (fun _ => false) false CArm ".definethumblabel" (mkLine [PIdent "f" VInvalid; PExpr (VInt 8)] true) =
    AGives (ALabel "f" (PExpr (VInt 8)) true).
Proof.
  split; [|vm_compute; repeat split; reflexivity].
  apply a_import; [left; reflexivity | left; reflexivity | apply im_psx_elf; reflexivity].
Qed.

(** Every other line with such a name is reported. *)
Theorem C102_reported : forall text_of elf_file psx_file psx c name l, In name (arch_names c) ->
  ~ (l_closed l = true /\ exists cmd, arch_says text_of elf_file psx_file psx c name (l_args l) cmd) ->
  exists errs, arch_line text_of elf_file psx_file psx c name l = AReported errs /\ errs <> [].
Proof. exact other_reported. Qed.
(** A constructor function is refused for a file that is no ELF file, a pool with a parameter is not ended. *)
Example C102_reported_ex :
  arch_line (fun _ => "") (fun _ => false) (fun _ => true) true CMips ".importlib" (mkLine [PString "a.lib"; PIdent "ctors" VInvalid] true) = AReported [ANoCtor] /\
  arch_line (fun _ => "") (fun _ => false) (fun _ => true) true CArm ".pool" (mkLine [PExpr (VInt 4)] true) = AReported [ADir EUnterminated] /\
  arch_line (fun _ => "") (fun _ => false) (fun _ => true) true CArm ".msg" (mkLine [] true) = AReported [ADir EDirective].
Proof. vm_compute. repeat split; reflexivity. Qed.

(** The names are those left out in C100, so that every line with the name of a directive is covered by C100 or here. *)
Theorem C102_names : forall text_of elf_file psx_file psx c name l,
  arch_line text_of elf_file psx_file psx c name l = AUnknown <-> ~ In name (arch_names c).
Proof. exact unknown_iff. Qed.
Example C102_names_ex : In ".importobj" (arch_names CSuperH) /\ ~ In ".importobj" (arch_names CArm).
Proof. vm_compute. split; [tauto|]. intros H. repeat (destruct H as [H|H]; [discriminate H|]). exact H. Qed.

Print Assumptions C102_line.
Print Assumptions C102_reported.
Print Assumptions C102_names.
