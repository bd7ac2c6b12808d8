(** Model of the functions generated for the constructors of imported objects: [mipsCtorTemplate], [shCtorTemplate],
    [ctorTemplate] and the generateCtorStub of the three relocators.

    Transcribes Archs/MIPS/MipsElfRelocator.cpp 79-135, Archs/SuperH/ShElfRelocator.cpp 51-108 and
    Archs/ARM/ArmElfRelocator.cpp 172-233, with replaceAll (Util/Util.cpp 240-254) and Parser::parseTemplate (Parser/Parser.cpp
    197-219).  A template is a text that is parsed like source text.  For MIPS and SuperH it is given here as its lines, in the
    pieces of MipsModel and ShModel; a label is its value.  The value is the one the last pass has, so the positions found
    are those that were used (AsmModel is about the passes).  For ARM the text itself is modelled.  The table after the
    code is in AsmObjModel. *)

Require Import ZArith Bool List String Ascii.
Require Import Verif.Ints Verif.Res Verif.MipsTable Verif.MipsModel Verif.MipsMacroModel.
Require Verif.ShModel.
Import ListNotations.
Local Open Scope string_scope.
Local Open Scope list_scope.
Local Open Scope Z_scope.

(** The labels of a template. *)
Inductive ctor_label := OuterLoop | InnerLoop | CtorTable.
Inductive ctor_item (P : Type) :=
| Mark (l : ctor_label)
| Line (name : string) (ps : list P).
Arguments Mark {P} l.
Arguments Line {P} name ps.

(** ** MIPS *)

Definition gpr (s : string) : piece := PName false s VBad.
Definition val (z : Z) : piece := PExpr (VInt z 0).
Definition mem (t : string) (o : Z) (b : string) : list piece := [gpr t; PSym ","; val o; PSym "("; gpr b; PSym ")"].
Definition mem0 (t b : string) : list piece := [gpr t; PSym ","; PSym "("; gpr b; PSym ")"].

(** mipsCtorTemplate: MipsElfRelocator.cpp 79-109, and the replacements of 125-131; [size]: %ctorTableSize%. *)
Definition mips_head (tab size : Z) : list (ctor_item piece) := [
  Line "addiu" [gpr "sp"; PSym ","; val (-32)];
  Line "sw" (mem "ra" 0 "sp");
  Line "sw" (mem "s0" 4 "sp");
  Line "sw" (mem "s1" 8 "sp");
  Line "sw" (mem "s2" 12 "sp");
  Line "sw" (mem "s3" 16 "sp");
  Line "li" [gpr "s0"; PSym ","; val tab];
  Line "li" [gpr "s1"; PSym ","; val (tab + size)]].
Definition mips_outer : list (ctor_item piece) := [
  Mark OuterLoop;
  Line "lw" (mem0 "s2" "s0");
  Line "lw" (mem "s3" 4 "s0");
  Line "addiu" [gpr "s0"; PSym ","; val 8]].
Definition mips_inner (inner : Z) : list (ctor_item piece) := [
  Mark InnerLoop;
  Line "lw" (mem0 "a0" "s2");
  Line "jalr" [gpr "a0"];
  Line "addiu" [gpr "s2"; PSym ","; val 4];
  Line "bne" [gpr "s2"; PSym ","; gpr "s3"; PSym ","; val inner];
  Line "nop" []].
Definition mips_tail (outer : Z) : list (ctor_item piece) := [
  Line "bne" [gpr "s0"; PSym ","; gpr "s1"; PSym ","; val outer];
  Line "nop" [];
  Line "lw" (mem "ra" 0 "sp");
  Line "lw" (mem "s0" 4 "sp");
  Line "lw" (mem "s1" 8 "sp");
  Line "lw" (mem "s2" 12 "sp");
  Line "lw" (mem "s3" 16 "sp");
  Line "jr" [gpr "ra"];
  Line "addiu" [gpr "sp"; PSym ","; val 32];
  Mark CtorTable].
(** The template for [n] sections: 111-135.  Without a section it is [jr ra :: nop]. *)
Definition mips_template (tab outer inner : Z) (n : nat) : list (ctor_item piece) :=
  match n with
  | O => [Line "jr" [gpr "ra"]; Line "nop" []]
  | _ => mips_head tab (8 * Z.of_nat n) ++ mips_outer ++ mips_inner inner ++ mips_tail outer
  end.

(** The commands one after the other (CommandSequence, Commands/CommandSequence.cpp): the words, the positions of the
    labels and the state afterwards. *)
Fixpoint mips_place (depth : nat) (s : mips_state) (ignore : bool) (pc : Z) (l : list (ctor_item piece)) :
    res (list Z * list (ctor_label * Z) * mips_state) :=
  match l with
  | [] => ROk ([], [], s)
  | Mark x :: l =>
    do r <- mips_place depth s ignore pc l;
    let '(ws, ms, s) := r in ROk (ws, (x, pc) :: ms, s)
  | Line name ps :: l =>
    do o <- mips_line depth s ignore pc name ps;
    do r <- mips_place depth (x_state o) ignore (pc + 4 * Z.of_nat (List.length (x_words o))) l;
    let '(ws, ms, s) := r in ROk (x_words o ++ ws, ms, s)
  end.
Definition mips_stub (depth : nat) (s : mips_state) (ignore : bool) (base tab outer inner : Z) (n : nat) :
    res (list Z * list (ctor_label * Z) * mips_state) :=
  mips_place depth s ignore base (mips_template tab outer inner n).

(** ** SuperH *)

Definition shr (s : string) : ShModel.shp := ShModel.SName s None.
Definition shc (c : ascii) : ShModel.shp := ShModel.SSym c.
Definition shv (z : Z) : ShModel.shp := ShModel.SExpr false (Some z).

(** shCtorTemplate: ShElfRelocator.cpp 51-82. *)
Definition sh_template (tab outer inner : Z) (n : nat) : list (ctor_item ShModel.shp) :=
  match n with
  | O => [Line "rts" []; Line "nop" []]
  | _ => [
    Line "mov.l" [shr "r8"; shc ","; shr "@"; shc "-"; shr "r15"];
    Line "mov.l" [shr "r9"; shc ","; shr "@"; shc "-"; shr "r15"];
    Line "mov.l" [shr "r10"; shc ","; shr "@"; shc "-"; shr "r15"];
    Line "mov.l" [shr "r11"; shc ","; shr "@"; shc "-"; shr "r15"];
    Line "sts.l" [shr "pr"; shc ","; shr "@"; shc "-"; shr "r15"];
    Line "mova" [shv tab; shc ","; shr "r0"];
    Line "mov" [shr "r0"; shc ","; shr "r8"];
    Line "mova" [shv (tab + 8 * Z.of_nat n); shc ","; shr "r0"];
    Line "mov" [shr "r0"; shc ","; shr "r9"];
    Mark OuterLoop;
    Line "mov.l" [shr "@r8"; shc ","; shr "r10"];
    Line "mov.l" [shr "@"; shc "("; shv 4; shc ","; shr "r9"; shc ")"; shc ","; shr "r11"];
    Line "add" [shc "#"; shv 8; shc ","; shr "r8"];
    Mark InnerLoop;
    Line "mov.l" [shr "@r10"; shc ","; shr "r4"];
    Line "jsr" [shr "r4"];
    Line "add" [shc "#"; shv 4; shc ","; shr "r10"];
    Line "cmp" [shc "/"; shr "eq"; shr "r10"; shc ","; shr "r11"];
    Line "bf" [shv inner];
    Line "cmp" [shc "/"; shr "eq"; shr "r8"; shc ","; shr "r9"];
    Line "bf" [shv outer];
    Line "lds.l" [shr "@r15"; shc "+"; shc ","; shr "pr"];
    Line "mov.l" [shr "@r15"; shc "+"; shc ","; shr "r11"];
    Line "mov.l" [shr "@r15"; shc "+"; shc ","; shr "r10"];
    Line "mov.l" [shr "@r15"; shc "+"; shc ","; shr "r9"];
    Line "rts" [];
    Line "mov.l" [shr "@r15"; shc "+"; shc ","; shr "r8"];
    Mark CtorTable]
  end.
(** The commands one after the other, as above; CShInstruction::Encode writes two bytes.  The [.align 4] before the table
    (line 79) moves the position of its label. *)
Fixpoint sh_place (pc : Z) (l : list (ctor_item ShModel.shp)) : res (list Z * list (ctor_label * Z)) :=
  match l with
  | [] => ROk ([], [])
  | Mark x :: l => do r <- sh_place pc l;
    let '(ws, ms) := r in ROk (ws, (x, match x with CtorTable => (pc + 3) / 4 * 4 | _ => pc end) :: ms)
  | Line name ps :: l =>
    do w <- ShModel.sh_assemble pc name ps;
    do r <- sh_place (pc + 2) l; let '(ws, ms) := r in ROk (w :: ws, ms)
  end.
Definition sh_stub (base tab outer inner : Z) (n : nat) : res (list Z * list (ctor_label * Z)) :=
  sh_place base (sh_template tab outer inner n).

(** ** ARM *)

(** replaceAll: Util.cpp 240-254; the text that was put in is not searched again.  [fuel]: the length of the text. *)
Fixpoint strip (p s : string) : option string :=
  match p, s with
  | EmptyString, _ => Some s
  | String a p, String b s => if Ascii.eqb a b then strip p s else None
  | String _ _, EmptyString => None
  end.
Fixpoint replace_all (fuel : nat) (s old new : string) : string :=
  match fuel with
  | O => s
  | S fuel =>
    match strip old s with
    | Some r => (new ++ replace_all fuel r old new)%string
    | None => match s with EmptyString => EmptyString | String c s => String c (replace_all fuel s old new) end
    end
  end.
Definition fill_in (s : string) (x : string * string) : string := replace_all (String.length s) s (fst x) (snd x).

(** ctorTemplate: ArmElfRelocator.cpp 172-203. *)
Definition arm_template : list string := [
  "push r4-r7,r14";
  "ldr r4,=%ctorTable%";
  "ldr r5,=%ctorTable%+%ctorTableSize%";
  "%outerLoopLabel%:";
  "ldr r6,[r4]";
  "ldr r7,[r4,4]";
  "add r4,8";
  "%innerLoopLabel%:";
  "ldr r0,[r6]";
  "add r6,4";
  ".if %simpleMode%";
  "blx r0";
  ".else";
  "bl %stubName%";
  ".endif";
  "cmp r6,r7";
  "blt %innerLooplabel%";
  "cmp r4,r5";
  "blt %outerLoopLabel%";
  ".if %simpleMode%";
  "pop r4-r7,r15";
  ".else";
  "pop r4-r7";
  "pop r0";
  "%stubName%:";
  "bx r0";
  ".endif";
  ".pool";
  "%ctorTable%:";
  ".word %ctorContent%"""].
(** The replacements of 218-226, in this order. *)
Record arm_args := mkArmArgs {
  a_table : string; a_size : string; a_outer : string; a_inner : string; a_stub : string; a_simple : bool; a_content : string }.
Definition arm_text (a : arm_args) : list string :=
  map (fun l => fold_left fill_in
    [("%ctorTable%", a_table a); ("%ctorTableSize%", a_size a); ("%outerLoopLabel%", a_outer a); ("%innerLoopLabel%", a_inner a);
     ("%stubName%", a_stub a); ("%simpleMode%", if a_simple a then "1" else "0"); ("%ctorContent%", a_content a)] l) arm_template.
