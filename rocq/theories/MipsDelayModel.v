(** Load delays over a whole sequence of lines.

    Files: Archs/MIPS/MipsParser.cpp 130-140 ([.resetdelay], [.fixloaddelay]), Archs/MIPS/Mips.cpp 52-57
    ([Revalidate]), Archs/MIPS/CMipsInstruction.cpp 16-22 (constructor) and 204-245 (through
    [mips_validate]), Commands/CommandSequence.cpp.

    One pass of [Validate] over the lines, at fixed addresses, and the words [Encode] then writes. *)

Require Import ZArith Bool List String.
Require Import Verif.Ints Verif.Res Verif.MipsTable Verif.MipsModel Verif.MipsMacroModel.
Import ListNotations.
Local Open Scope list_scope.
Local Open Scope Z_scope.

(** A line of the source text. *)
Inductive source_line := Code (name : string) (ps : list piece) | ResetDelay | FixLoadDelay.

(** Parsing: each instruction is given the value of [IgnoreLoadDelay] at its line
    (CMipsInstruction.cpp 18); [.resetdelay] sets it (MipsParser.cpp 130-134) and nothing clears it;
    macros are expanded. *)
Fixpoint parse_source (depth : nat) (arch : mips_arch) (ignore : bool) (src : list source_line) : res (list (bool * mline)) :=
  match src with
  | [] => ROk []
  | Code name ps :: src =>
    do ls <- expand depth arch (name, ps);
    do r <- parse_source depth arch ignore src;
    ROk (map (fun l => (ignore, l)) ls ++ r)
  | ResetDelay :: src => parse_source depth arch true src
  | FixLoadDelay :: src => parse_source depth arch ignore src
  end.

(** [.fixloaddelay] takes effect while parsing (MipsParser.cpp 136-140), so before any instruction is
    validated: it holds for the whole text. *)
Definition fixes (src : list source_line) : bool :=
  existsb (fun l => match l with FixLoadDelay => true | _ => false end) src.

(** The instructions one after the other: CommandSequence.cpp, CMipsInstruction.cpp 70-247. *)
Fixpoint mips_trace (s : mips_state) (pc : Z) (ls : list (bool * mline)) : res (list mips_out) :=
  match ls with
  | [] => ROk []
  | (ignore, (name, ps)) :: ls =>
    do x <- mips_assemble s ignore pc name ps;
    do y <- mips_trace (x_state x) (pc + 4 * Z.of_nat (List.length (x_words x))) ls;
    ROk (x :: y)
  end.

(** A text for the PlayStation from [pc] on.  The pass starts after [Revalidate] (Mips.cpp 52-57). *)
Definition psx_program (depth : nat) (pc : Z) (src : list source_line) : res (list mips_out) :=
  do ls <- parse_source depth PSX false src;
  mips_trace (mkMips PSX (fixes src) false 0 false) pc ls.
