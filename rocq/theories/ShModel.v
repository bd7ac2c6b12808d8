(** SuperH instructions: from the text to the halfword.

    Files: Archs/SuperH/ShParser.cpp (parseRegister 59-85, parseImmediate 87-106, matchSymbol 108-127,
    decodeImmediateSize 129-154, decodeOpcode 156-191, parseParameters 193-289, parseOpcode 291-331),
    Archs/SuperH/CShInstruction.cpp (Validate 44-131, Encode 133-183).

    Simplified: the operands are pieces, not tokens.  An expression is one piece with its value, so how
    its tokens are read (ExpressionParser.cpp, modelled in SyntaxModel) is not repeated here; the split
    of the line into pieces is the one of the written instruction.  [memcmp] in parseParameters 212 may
    read behind the end of the operand string; the result does not depend on these bytes.  Only .saturn
    selects this architecture (DirectivesParser.cpp 466-475), so every row is available
    (ShOpcodes.cpp 201-203).  The listing (ShOpcodeFormatter) is not modelled. *)

Require Import ZArith Bool List String Ascii.
Require Import Verif.Ints Verif.Res Verif.ShTable.
Import ListNotations.
Local Open Scope string_scope.
Local Open Scope list_scope.
Local Open Scope Z_scope.

(** A piece of the line: an identifier (with the value it has as an expression), another expression
    ([reg]: its first token, after an opening parenthesis, is a register), or a symbol.  No value: it
    does not evaluate to an integer. *)
Inductive shp :=
| SName (s : string) (v : option Z)
| SExpr (reg : bool) (v : option Z)
| SSym (c : ascii).

(** shRegisters: ShParser.cpp 17-26. *)
Definition shRegisters : list (string * Z) := [
  ("r0", 0); ("r1", 1); ("r2", 2); ("r3", 3); ("r4", 4); ("r5", 5); ("r6", 6); ("r7", 7);
  ("r8", 8); ("r9", 9); ("r10", 10); ("r11", 11); ("r12", 12); ("r13", 13); ("r14", 14); ("r15", 15);
  ("@r0", 0); ("@r1", 1); ("@r2", 2); ("@r3", 3); ("@r4", 4); ("@r5", 5); ("@r6", 6); ("@r7", 7);
  ("@r8", 8); ("@r9", 9); ("@r10", 10); ("@r11", 11); ("@r12", 12); ("@r13", 13); ("@r14", 14); ("@r15", 15)].

(** shSpecialForcedRegisters: ShParser.cpp 12-15. *)
Definition shForced : list string := ["r0"; "sr"; "gbr"; "vbr"; "mach"; "macl"; "pr"; "pc"].

(** parseRegisterTable, parseRegister: ShParser.cpp 59-85. *)
Fixpoint register_table (t : list (string * Z)) (s : string) : option Z :=
  match t with
  | [] => None
  | (n, v) :: t => if String.eqb s n then Some v else register_table t s
  end.
Definition parseRegister (p : shp) : option Z :=
  match p with SName s _ => register_table shRegisters s | _ => None end.

(** parseImmediate: ShParser.cpp 87-106. *)
Definition parseImmediate (p : shp) : option (option Z) :=
  match p with
  | SName s v => match register_table shRegisters s with Some _ => None | None => Some v end
  | SExpr reg v => if reg then None else Some v
  | SSym _ => None
  end.

(** matchSymbol: ShParser.cpp 108-127. *)
Definition matchSymbol (c : ascii) (p : shp) : bool :=
  existsb (Ascii.eqb c) ["("; ")"; ","; "#"; "-"; "+"]%char &&
  match p with SSym d => Ascii.eqb c d | _ => false end.

(** ** Operand strings *)

(** The steps of parseParameters, ShParser.cpp 200-281, for an operand string. *)
Inductive sh_item :=
| IForced (s : string)      (* 205-232: a forced register *)
| IT | IS                   (* 236-241 *)
| IImm (bits : Z)           (* 242-245 *)
| IAtT | IAtS               (* 252-259 *)
| IAtSym (c : ascii)        (* 260-264 *)
| ISym (c : ascii).         (* 271-273 *)

(** decodeImmediateSize: ShParser.cpp 129-154. *)
Fixpoint read_number (n : Z) (s : string) : Z * string :=
  match s with
  | String c r =>
    let d := Z.of_nat (nat_of_ascii c) - 48 in
    if (0 <=? d) && (d <=? 9) then read_number (n * 10 + d) r else (n, s)
  | EmptyString => (n, s)
  end.
Definition forced_prefix (s : string) : option (string * string) :=
  match find (fun f => String.prefix f s) shForced with
  | Some f => Some (f, substring (String.length f) (String.length s - String.length f) s)
  | None => None
  end.
(** A forced register whose name does not match falls through to the switch, which then fails: [r], [g],
    [v], [m], [p] are no symbols, and [sr] would have to be a register followed by [r]. *)
Fixpoint template (fuel : nat) (forced : bool) (s : string) : option (list sh_item) :=
  match fuel with
  | O => None
  | S fuel =>
    let more (it : sh_item) r := match template fuel forced r with Some l => Some (it :: l) | None => None end in
    match s with
    | EmptyString => Some []
    | String c r =>
      match (if forced then forced_prefix s else None) with
      | Some (f, r) => more (IForced f) r
      | None =>
        if Ascii.eqb c "t" then more IT r
        else if Ascii.eqb c "s" then more IS r
        else if Ascii.eqb c "i" then
          let '(n, r) := read_number 0 r in
          if existsb (Z.eqb n) [4; 8; 12] then more (IImm n) r else None
        else if Ascii.eqb c "@" then
          match r with
          | String d r =>
            if Ascii.eqb d "t" then more IAtT r
            else if Ascii.eqb d "s" then more IAtS r
            else if Ascii.eqb d "(" || Ascii.eqb d "-" then more (IAtSym d) r
            else None
          | EmptyString => None
          end
        else more (ISym c) r
      end
    end
  end.
Definition row_items (o : sh_opcode) : list sh_item :=
  match template 40 (negb (Z.land (sh_flags o) SH_FREG =? 0)) (sh_encoding o) with Some l => l | None => [ISym "x"%char] end.

(** The parser's variables: ShRegisterData, ShImmediateData (CShInstruction.h 28-52). *)
Record sh_inst := mkSh { sh_grs : Z; sh_grt : Z; sh_imm : option (Z * option Z) }.
Definition sh_fresh : sh_inst := mkSh (-1) (-1) None.

(** parseParameters: ShParser.cpp 193-289.  The line has to end after the operands. *)
Definition first_at (s : string) : bool := match s with String c _ => Ascii.eqb c "@" | EmptyString => false end.
Fixpoint parse_items (its : list sh_item) (i : sh_inst) (ps : list shp) : option sh_inst :=
  match its, ps with
  | [], [] => Some i
  | [], _ :: _ => None
  | _ :: _, [] => None
  | it :: its, p :: ps =>
    match it with
    | IForced f => match p with
                   | SName s _ => if String.eqb s f then parse_items its i ps else None
                   | _ => None
                   end
    | IT => match parseRegister p with
            | Some n => parse_items its (mkSh (sh_grs i) n (sh_imm i)) ps
            | None => None
            end
    | IS => match parseRegister p with
            | Some n => parse_items its (mkSh n (sh_grt i) (sh_imm i)) ps
            | None => None
            end
    | IImm b => match parseImmediate p with
                | Some v => parse_items its (mkSh (sh_grs i) (sh_grt i) (Some (b, v))) ps
                | None => None
                end
    | IAtT => match p with
              | SName s _ => if first_at s then match parseRegister p with
                                                | Some n => parse_items its (mkSh (sh_grs i) n (sh_imm i)) ps
                                                | None => None
                                                end
                             else None
              | _ => None
              end
    | IAtS => match p with
              | SName s _ => if first_at s then match parseRegister p with
                                                | Some n => parse_items its (mkSh n (sh_grt i) (sh_imm i)) ps
                                                | None => None
                                                end
                             else None
              | _ => None
              end
    | IAtSym c => match p, ps with
                  | SName s _, q :: ps => if first_at s && matchSymbol c q then parse_items its i ps else None
                  | _, _ => None
                  end
    | ISym c => if matchSymbol c p then parse_items its i ps else None
    end
  end.

(** decodeOpcode: ShParser.cpp 156-191; the rest of the line. *)
Fixpoint decodeOpcode (encoding name : string) (ps : list shp) : option (list shp) :=
  match encoding with
  | EmptyString => match name with EmptyString => Some ps | _ => None end
  | String c e =>
    if Ascii.eqb c "/" then
      match name, ps with
      | EmptyString, SSym d :: SName n _ :: ps => if Ascii.eqb d "/" then decodeOpcode e n ps else None
      | _, _ => None
      end
    else match name with
         | String d n => if Ascii.eqb c d then decodeOpcode e n ps else None
         | EmptyString => None
         end
  end.

(** parseOpcode: ShParser.cpp 291-331. *)
Definition parse_row (name : string) (ps : list shp) (o : sh_opcode) : option sh_inst :=
  match decodeOpcode (sh_name o) name ps with
  | Some r => parse_items (row_items o) sh_fresh r
  | None => None
  end.
Fixpoint parse_rows (name : string) (ps : list shp) (t : list sh_opcode) : option (sh_opcode * sh_inst) :=
  match t with
  | [] => None
  | o :: t => match parse_row name ps o with Some i => Some (o, i) | None => parse_rows name ps t end
  end.

(** ** Validation *)

Definition sh_has (o : sh_opcode) (f : Z) : bool := negb (Z.land (sh_flags o) f =? 0).

(** The range of a relative operand: CShInstruction.cpp 93-99. *)
Definition sh_range (o : sh_opcode) (b : Z) : Z := (2 ^ b - 1) * (if sh_has o SH_IMM32 then 4 else 2).

(** CShInstruction::Validate: CShInstruction.cpp 44-131; the immediate for Encode.  [value += (int)RamPos]
    and [abs] overflow when the result does not fit. *)
Definition sh_immediate (o : sh_opcode) (pc b z : Z) : res Z :=
  let v := s32 z in
  let rel := if sh_has o SH_IMM32 then (pc + 4) - (pc + 4) mod 4 else pc + 4 in
  do v <- (if (sh_has o SH_IMM16 || sh_has o SH_IMM32) && sh_has o SH_PCRELMANUAL
           then if s32 (v + s32 pc) =? v + s32 pc then ROk (v + s32 pc) else RUb
           else ROk v);
  if sh_has o SH_IMM16 && negb (u64 v mod 2 =? 0) then RErr
  else if sh_has o SH_IMM32 && negb (u64 v mod 4 =? 0) then RErr
  else
    do v <- (if sh_has o SH_IMMREL || sh_has o SH_PCRELMANUAL then
               let range := sh_range o b in
               let hi := if sh_has o SH_IMMSIGNED then Z.quot range 2 else range in
               let lo := if sh_has o SH_IMMSIGNED then - Z.quot range 2 else 0 in
               let num := s64 (v - rel) in
               if (num >? hi) || (num <? lo) then RErr else ROk (s32 num)
             else ROk v);
    let v := if sh_has o SH_IMM16 then Z.shiftr v 1 else if sh_has o SH_IMM32 then Z.shiftr v 2 else v in
    let mask := 2 ^ b - 1 in
    if v =? -2147483648 then RUb
    else if Z.abs v >? mask then RErr else ROk (Z.land v mask).
Definition sh_validate (o : sh_opcode) (pc : Z) (i : sh_inst) : res Z :=
  if negb (Z.rem pc 2 =? 0) then RErr
  else match sh_imm i with
       | None => ROk 0
       | Some (_, None) => RErr
       | Some (b, Some z) => sh_immediate o pc b z
       end.

(** CShInstruction::Encode: CShInstruction.cpp 133-183. *)
Definition sh_encode (o : sh_opcode) (s t v : Z) : Z :=
  let r x n := Z.shiftl (Z.land x 0xF) n in
  let e := sh_base o in
  u16 match sh_fmt o with
      | SHFMT_0 => e
      | SHFMT_N => Z.lor e (r t 8)
      | SHFMT_M => Z.lor e (r s 8)
      | SHFMT_NM => Z.lor (Z.lor e (r t 8)) (r s 4)
      | SHFMT_MD => Z.lor (Z.lor e (r s 4)) v
      | SHFMT_ND4 => Z.lor (Z.lor e (r t 4)) v
      | SHFMT_NMD => Z.lor (Z.lor (Z.lor e (r t 8)) (r s 4)) v
      | SHFMT_D | SHFMT_D12 | SHFMT_I => Z.lor e v
      | SHFMT_ND8 | SHFMT_NI => Z.lor (Z.lor e (r t 8)) v
      end.

(** A line, from its mnemonic and the rest. *)
Definition sh_assemble (pc : Z) (name : string) (ps : list shp) : res Z :=
  match parse_rows name ps shOpcodes with
  | None => RErr
  | Some (o, i) => do v <- sh_validate o pc i; ROk (sh_encode o (sh_grs i) (sh_grt i) v)
  end.
