(** Model of the MIPS instruction parser and encoder.

    Transcribes the parameter parsing of Archs/MIPS/MipsParser.cpp and Archs/MIPS/CMipsInstruction.cpp.
    An instruction as written is its mnemonic and a list of [piece]s; the tokenizer and the expression
    parser are modelled elsewhere, so an expression appears as its value.  [RErr]: an error was queued.
    [RUb]: undefined behaviour of the C++ code. *)

Require Import ZArith Bool List String Ascii.
Require Import Verif.Ints Verif.Res Verif.ArmModel Verif.MipsTable.
Import ListNotations.
Local Open Scope Z_scope.

(** The value of an expression operand.  The half float that [toHalfFloat] (Util.cpp 113-163, not
    modelled) makes of it comes with it. *)
Inductive mval :=
| VInt (z half : Z)
| VFloat (half : Z)
| VBad.

(** What stands between the brackets of an RSP element: [$n], or a number token with its text. *)
Inductive bracket :=
| BDollar (n : N)
| BNumber (text : string) (n : option N).

(** The pieces an operand list is made of.  Identifiers are in lower case.  [PName] also carries the
    value the name has as an expression; [PDollar] is [$] and a number.  [PExpr] is any other
    expression that does not start with a register name.  Simplified: [PVec] stands for the argument of
    vpfxs/vpfxt/vpfxd, vcst and vrot, which parseVpfxsParameter, parseVpfxdParameter,
    parseVcstParameter and parseVfpuVrot (MipsParser.cpp 629-1041) turn into one number. *)
Inductive piece :=
| PSym (c : ascii)
| PName (dollar : bool) (s : string) (v : mval)
| PDollar (n : N)
| PInt (n : N) (half : Z)
| PExpr (v : mval)
| PBrack (b : bracket)
| PVec (n : N).

(** [MipsRegisterData]: CMipsInstruction.h 52-85.  The eighteen registers of the structure are the
    values of a function on their names; -1 is absent. *)
Inductive slot :=
| grs | grt | grd | frs | frt | frd | ps2vrs | ps2vrt | ps2vrd
| rspvrs | rspvrt | rspvrd | rspve | rspvde | rspvealt | vrs | vrt | vrd.
Definition slot_eq_dec (a b : slot) : {a = b} + {a <> b}.
Proof. decide equality. Defined.
Definition mregs := slot -> Z.
(** [MipsRegisterData::reset]: CMipsInstruction.h 76-84. *)
Definition no_regs : mregs := fun _ => -1.
Definition set_reg (r : mregs) (x : slot) (v : Z) : mregs := fun y => if slot_eq_dec y x then v else r y.

(** [MipsImmediateType]: CMipsInstruction.h 27-43. *)
Inductive imm_type :=
| INone | Immediate5 | Immediate10 | Immediate16 | Immediate20 | Immediate25 | Immediate26
| Immediate20_0 | ImmediateHalfFloat | Immediate7 | CacheOp | Ext | Ins | Cop2BranchType.
Definition imm_type_eq_dec (a b : imm_type) : {a = b} + {a <> b}.
Proof. decide equality. Defined.

(** What the parser fills in: [MipsOpcodeData], [MipsImmediateData], [MipsRegisterData]
    (CMipsInstruction.h 52-127).  [i_pexp = None]: the expression is not loaded, the value was set by
    the parser. *)
Record minst := mkMinst {
  i_regs : mregs;
  i_ptype : imm_type; i_pexp : option mval; i_pval : Z;
  i_stype : imm_type; i_sexp : option mval; i_sval : Z;
  i_vsize : Z; i_vcond : Z }.

Definition set_regs (i : minst) (r : mregs) : minst :=
  mkMinst r (i_ptype i) (i_pexp i) (i_pval i) (i_stype i) (i_sexp i) (i_sval i) (i_vsize i) (i_vcond i).
Definition set_primary (i : minst) (t : imm_type) (e : option mval) (v : Z) : minst :=
  mkMinst (i_regs i) t e v (i_stype i) (i_sexp i) (i_sval i) (i_vsize i) (i_vcond i).
Definition set_secondary (i : minst) (t : imm_type) (e : option mval) (v : Z) : minst :=
  mkMinst (i_regs i) (i_ptype i) (i_pexp i) (i_pval i) t e v (i_vsize i) (i_vcond i).
Definition set_vsize (i : minst) (v : Z) : minst :=
  mkMinst (i_regs i) (i_ptype i) (i_pexp i) (i_pval i) (i_stype i) (i_sexp i) (i_sval i) v (i_vcond i).
Definition set_vcond (i : minst) (v : Z) : minst :=
  mkMinst (i_regs i) (i_ptype i) (i_pexp i) (i_pval i) (i_stype i) (i_sexp i) (i_sval i) (i_vsize i) v.

(** ** Registers *)

(** The loop of [parseRegisterTable]: MipsParser.cpp 257-266. *)
Fixpoint find_name (t : list (string * Z)) (s : string) : option Z :=
  match t with
  | [] => None
  | (n, v) :: r => if String.eqb s n then Some v else find_name r s
  end.

(** The kinds of register operands and the table behind each: [parseRegister] to
    [parseRspVectorRegister], MipsParser.cpp 271-361.  The flag says whether [$n] is accepted
    ([parseRegisterNumber], 225-242, with 32 values). *)
Inductive regfile :=
| RfGpr | RfFloat | RfFpuControl | RfCop0 | RfPs2 | RfPsxData | RfPsxControl | RfRspCop0 | RfRspVectorControl
| RfRspVector.
Definition regfile_table (f : regfile) : list (string * Z) :=
  match f with
  | RfGpr => mipsRegisters
  | RfFloat => mipsFloatRegisters
  | RfFpuControl => mipsFpuControlRegisters
  | RfCop0 => mipsCop0Registers
  | RfPs2 => mipsPs2Cop2FpRegisters
  | RfPsxData => mipsPsxCop2DataRegisters
  | RfPsxControl => mipsPsxCop2ControlRegisters
  | RfRspCop0 => mipsRspCop0Registers
  | RfRspVectorControl => mipsRspVectorControlRegisters
  | RfRspVector => mipsRspVectorRegisters
  end.
Definition regfile_numbers (f : regfile) : bool :=
  match f with RfPs2 | RfRspVector => false | _ => true end.
Definition parse_register (f : regfile) (p : piece) : option Z :=
  match p with
  | PDollar n => if regfile_numbers f && (Z.of_N n <? 32) then Some (Z.of_N n) else None
  | PName _ s _ => find_name (regfile_table f) s
  | _ => None
  end.

(** [parseRspVectorElement]: MipsParser.cpp 363-414.  The text of the number is in lower case. *)
Definition rspElementNames : list (string * Z) := [
  ("0q", 2); ("1q", 3); ("0h", 4); ("1h", 5); ("2h", 6); ("3h", 7); ("0w", 8); ("0", 8);
  ("1w", 9); ("1", 9); ("2w", 10); ("2", 10); ("3w", 11); ("3", 11); ("4w", 12); ("4", 12);
  ("5w", 13); ("5", 13); ("6w", 14); ("6", 14); ("7w", 15); ("7", 15)]%string.
Definition parse_vector_element (ps : list piece) : option (Z * list piece) :=
  match ps with
  | PBrack (BDollar n) :: r => if Z.of_N n <? 16 then Some (Z.of_N n, r) else None
  | PBrack (BNumber t _) :: r => match find_name rspElementNames t with Some v => Some (v, r) | None => None end
  | _ => Some (0, ps)
  end.
(** [parseRspScalarElement]: MipsParser.cpp 416-432. *)
Definition parse_scalar_element (ps : list piece) : option (Z * list piece) :=
  match ps with
  | PBrack (BNumber _ (Some n)) :: r => if Z.of_N n <? 8 then Some (Z.of_N n + 8, r) else None
  | _ => None
  end.
(** [parseRspOffsetElement]: MipsParser.cpp 434-457. *)
Definition parse_offset_element (ps : list piece) : option (Z * list piece) :=
  match ps with
  | PBrack (BNumber _ (Some n)) :: r => if Z.of_N n <? 16 then Some (Z.of_N n, r) else None
  | PBrack _ :: _ => None
  | _ => Some (0, ps)
  end.

(** [decodeDigit]: MipsParser.cpp 459-467. *)
Definition decodeDigit (c : ascii) : option Z :=
  let n := Z.of_nat (nat_of_ascii c) in if (48 <=? n) && (n <=? 57) then Some (n - 48) else None.

(** [parseVfpuRegister]: MipsParser.cpp 469-555.  The result is the number and whether it is a matrix. *)
Definition parse_vfpu (size : Z) (p : piece) : option (Z * bool) :=
  match p with
  | PName false (String m (String c1 (String c2 (String c3 EmptyString)))) _ =>
    match decodeDigit c1, decodeDigit c2, decodeDigit c3 with
    | Some mtx, Some col, Some row =>
      if (size <? 0) || (size >? 3) then None
      else if (row >? 3) || (col >? 3) || (mtx >? 7) then None
      else
        let vector col row num :=
          let done row := Some (Z.lor (Z.lor (Z.lor num (Z.shiftl mtx 2)) col) (Z.shiftl row 5), false) in
          if (size =? 1) || (size =? 3) then if Z.land row 1 =? 0 then done row else None
          else if size =? 2 then if Z.land row 2 =? 0 then done (Z.shiftl row 1) else None
          else None in
        let matrix num :=
          let done row := Some (Z.lor (Z.lor (Z.lor num (Z.shiftl mtx 2)) col) (Z.shiftl row 5), true) in
          if (size =? 1) || (size =? 3) then if Z.land row 1 =? 0 then done row else None
          else if size =? 2 then if row <=? 1 then done (Z.shiftl row 1) else None
          else None in
        if Ascii.eqb m "r" then vector row col 32
        else if Ascii.eqb m "c" then vector col row 0
        else if Ascii.eqb m "s" then
          if size =? 0 then Some (Z.lor (Z.lor (Z.shiftl mtx 2) col) (Z.shiftl row 5), false) else None
        else if Ascii.eqb m "e" then matrix 32
        else if Ascii.eqb m "m" then matrix 0
        else None
    | _, _, _ => None
    end
  | _ => None
  end.

(** [parseVfpuControlRegister]: MipsParser.cpp 557-592. *)
Definition vfpuCtrlNames : list (string * Z) := [
  ("spfx", 0); ("tpfx", 1); ("dpfx", 2); ("cc", 3); ("inf4", 4); ("rsv5", 5); ("rsv6", 6); ("rev", 7);
  ("rcx0", 8); ("rcx1", 9); ("rcx2", 10); ("rcx3", 11); ("rcx4", 12); ("rcx5", 13); ("rcx6", 14);
  ("rcx7", 15)]%string.
Definition parse_vfpu_control (p : piece) : option Z :=
  match p with
  | PName false s _ => find_name vfpuCtrlNames s
  | PInt n _ => if Z.of_N n <=? 15 then Some (Z.of_N n) else None
  | _ => None
  end.

(** [parseImmediate]: MipsParser.cpp 594-612.  A name that is a general register is refused. *)
Definition parse_immediate (p : piece) : option mval :=
  match p with
  | PName d s v => match find_name mipsRegisters s with
                   | Some _ => None
                   | None => if d then None else Some v
                   end
  | PInt n h => Some (VInt (Z.of_N n) h)
  | PExpr v => Some v
  | _ => None
  end.

(** [parseVfpuCondition]: MipsParser.cpp 853-875. *)
Definition vfpuConditions : list (string * Z) := [
  ("fl", 0); ("eq", 1); ("lt", 2); ("le", 3); ("tr", 4); ("ne", 5); ("ge", 6); ("gt", 7);
  ("ez", 8); ("en", 9); ("ei", 10); ("es", 11); ("nz", 12); ("nn", 13); ("ni", 14); ("ns", 15)]%string.

(** [decodeCop2BranchCondition] on the rest of a text: MipsParser.cpp 1043-1092. *)
Definition cop2Conditions : list (string * Z) := [
  ("any", 4); ("all", 5); ("x", 0); ("0", 0); ("y", 1); ("1", 1); ("z", 2); ("2", 2); ("w", 3); ("3", 3);
  ("4", 4); ("5", 5)]%string.

(** ** Templates *)

(** The operand letters of an encoding string: the [switch] of [parseParameters], MipsParser.cpp
    1270-1524.  Simplified: the string is cut into operands first and the operands are then parsed in
    turn, which the C++ code does in one loop. *)
Inductive vsel := VOwn | VSingle | VHalf | VDouble | VFourth | VQuad.
Inductive vecarg := WPfxs | WPfxd | WCst | WRot.
Inductive tmpl :=
| TReg (f : regfile) (x : slot)
| TForced (n : Z)
| TVfpu (sel : vsel) (x : slot)
| TVctl
| TMtx (x : slot)
| TElem (x : slot)
| TScalar (x : slot)
| TOffset (x : slot)
| TImm (t : imm_type)
| TSec (t : imm_type)
| TCond
| TVec (w : vecarg)
| TWb
| TSym (c : ascii)
| TFail.

Local Open Scope char_scope.
(** [case 'v']: MipsParser.cpp 1345-1367. *)
Definition vfpu_letter (sel : vsel) (c : ascii) : tmpl :=
  match c with
  | "s" => TVfpu sel vrs
  | "t" => TVfpu sel vrt
  | "d" => TVfpu sel vrd
  | "c" => TVctl
  | _ => TFail
  end.

Fixpoint template (s : string) : list tmpl :=
  match s with
  | EmptyString => []
  | String "t" r => TReg RfGpr grt :: template r
  | String "d" r => TReg RfGpr grd :: template r
  | String "s" r => TReg RfGpr grs :: template r
  | String "T" r => TReg RfFloat frt :: template r
  | String "D" r => TReg RfFloat frd :: template r
  | String "S" r => TReg RfFloat frs :: template r
  | String "f" r => TReg RfFpuControl frs :: template r
  | String "z" r => TReg RfCop0 grd :: template r
  | String "v" (String "S" (String c r)) => vfpu_letter VSingle c :: template r
  | String "v" (String "H" (String c r)) => vfpu_letter VHalf c :: template r
  | String "v" (String "D" (String c r)) => vfpu_letter VDouble c :: template r
  | String "v" (String "F" (String c r)) => vfpu_letter VFourth c :: template r
  | String "v" (String "Q" (String c r)) => vfpu_letter VQuad c :: template r
  | String "v" (String c r) => vfpu_letter VOwn c :: template r
  | String "m" (String "s" r) => TMtx vrs :: template r
  | String "m" (String "t" r) => TMtx vrt :: template r
  | String "m" (String "d" r) => TMtx vrd :: template r
  | String "V" (String "t" r) => TReg RfPs2 ps2vrt :: template r
  | String "V" (String "d" r) => TReg RfPs2 ps2vrd :: template r
  | String "V" (String "s" r) => TReg RfPs2 ps2vrs :: template r
  | String "g" (String "t" r) => TReg RfPsxData grt :: template r
  | String "g" (String "s" r) => TReg RfPsxData grd :: template r
  | String "g" (String "c" r) => TReg RfPsxControl grd :: template r
  | String "r" (String c r) => TForced (Z.of_nat (nat_of_ascii c)) :: template r
  | String "R" (String "z" r) => TReg RfRspCop0 grd :: template r
  | String "R" (String "c" r) => TReg RfRspVectorControl grd :: template r
  | String "R" (String "t" r) => TReg RfRspVector rspvrt :: template r
  | String "R" (String "d" r) => TReg RfRspVector rspvrd :: template r
  | String "R" (String "s" r) => TReg RfRspVector rspvrs :: template r
  | String "R" (String "e" r) => TElem rspve :: template r
  | String "R" (String "l" r) => TScalar rspve :: template r
  | String "R" (String "m" r) => TScalar rspvde :: template r
  | String "R" (String "o" r) => TOffset rspvealt :: template r
  (* decodeImmediateSize, MipsParser.cpp 1120-1163 *)
  | String "i" (String "h" r) => TImm ImmediateHalfFloat :: template r
  | String "i" (String "5" r) => TImm Immediate5 :: template r
  | String "i" (String "7" r) => TImm Immediate7 :: template r
  | String "i" (String "1" (String "0" r)) => TImm Immediate10 :: template r
  | String "i" (String "1" (String "6" r)) => TImm Immediate16 :: template r
  | String "i" (String "2" (String "0" r)) => TImm Immediate20 :: template r
  | String "i" (String "2" (String "5" r)) => TImm Immediate25 :: template r
  | String "i" (String "2" (String "6" r)) => TImm Immediate26 :: template r
  | String "j" (String "c" r) => TSec CacheOp :: template r
  | String "j" (String "e" r) => TSec Ext :: template r
  | String "j" (String "i" r) => TSec Ins :: template r
  | String "j" (String "b" r) => TSec Cop2BranchType :: template r
  | String "C" r => TCond :: template r
  | String "W" (String "s" r) => TVec WPfxs :: template r
  | String "W" (String "d" r) => TVec WPfxd :: template r
  | String "W" (String "c" r) => TVec WCst :: template r
  | String "W" (String "r" r) => TVec WRot :: template r
  | String "w" r => TWb :: template r
  | String "(" r => TSym "(" :: template r
  | String ")" r => TSym ")" :: template r
  | String "," r => TSym "," :: template r
  | _ => [TFail]
  end.
Local Close Scope char_scope.

(** The size of a VFPU operand: MipsParser.cpp 1297-1343. *)
Definition vfpu_actual (sel : vsel) (size : Z) : option Z :=
  match sel with
  | VOwn => Some size
  | VSingle => Some 0
  | VHalf => if size =? 1 then Some 0 else if size =? 3 then Some 1 else None
  | VDouble => if size =? 0 then Some 1 else if size =? 1 then Some 3 else None
  | VFourth => if size =? 3 then Some 0 else None
  | VQuad => if size =? 0 then Some 3 else None
  end.

(** The range of a vector argument: what parseVpfxsParameter, parseVpfxdParameter,
    parseVcstParameter and parseVfpuVrot can return. *)
Definition vec_range (w : vecarg) (n : Z) : bool :=
  match w with
  | WPfxs => n <? 2 ^ 20
  | WPfxd => n <? 2 ^ 12
  | WCst => (1 <=? n) && (n <=? 19)
  | WRot => n <? 32
  end.
(** The immediate type of a vector argument: MipsParser.cpp 1494-1513. *)
Definition vec_type (w : vecarg) : imm_type :=
  match w with WPfxs => Immediate20_0 | WPfxd => Immediate16 | WCst => Immediate5 | WRot => Immediate5 end.

(** One round of the loop of [parseParameters]: MipsParser.cpp 1266-1525. *)
Definition parse_operand (o : mips_opcode) (t : tmpl) (i : minst) (ps : list piece) : option (minst * list piece) :=
  match t with
  | TReg f x =>
    match ps with
    | p :: r => match parse_register f p with
                | Some v => Some (set_regs i (set_reg (i_regs i) x v), r)
                | None => None
                end
    | [] => None
    end
  | TForced n =>
    match ps with
    | p :: r => match parse_register RfGpr p with
                | Some v => if v =? n then Some (i, r) else None
                | None => None
                end
    | [] => None
    end
  | TVfpu sel x =>
    match ps, vfpu_actual sel (i_vsize i) with
    | p :: r, Some size =>
      match parse_vfpu size p with
      | Some (v, false) =>
        if mhas o MO_VFPU_6BIT && negb (Z.land v 0x40 =? 0) then None
        else Some (set_regs i (set_reg (i_regs i) x v), r)
      | _ => None
      end
    | _, _ => None
    end
  | TVctl =>
    match ps with
    | p :: r => match parse_vfpu_control p with
                | Some v => Some (set_regs i (set_reg (i_regs i) vrd v), r)
                | None => None
                end
    | [] => None
    end
  | TMtx x =>
    match ps with
    | p :: r =>
      match parse_vfpu (i_vsize i) p with
      | Some (v, true) =>
        let v := match x with
                 | vrs => if mhas o MO_VFPU_TRANSPOSE_VS then Z.lxor v 0x20 else v
                 | _ => v
                 end in
        Some (set_regs i (set_reg (i_regs i) x v), r)
      | _ => None
      end
    | [] => None
    end
  | TElem x =>
    match parse_vector_element ps with
    | Some (v, r) => Some (set_regs i (set_reg (i_regs i) x v), r)
    | None => None
    end
  | TScalar x =>
    match parse_scalar_element ps with
    | Some (v, r) => Some (set_regs i (set_reg (i_regs i) x v), r)
    | None => None
    end
  | TOffset x =>
    match parse_offset_element ps with
    | Some (v, r) => Some (set_regs i (set_reg (i_regs i) x v), r)
    | None => None
    end
  | TImm ty =>
    match ps with
    | p :: r => match parse_immediate p with
                | Some v => Some (set_primary i ty (Some v) (i_pval i), r)
                | None => None
                end
    | [] => None
    end
  | TSec Cop2BranchType =>
    match ps with
    | PInt n _ :: r => if Z.of_N n <=? 5 then Some (set_secondary i Cop2BranchType (i_sexp i) (Z.of_N n), r) else None
    | PName false s _ :: r =>
      match find_name cop2Conditions s with
      | Some v => Some (set_secondary i Cop2BranchType (i_sexp i) v, r)
      | None => None
      end
    | _ => None
    end
  | TSec ty =>
    match ps with
    | p :: r => match parse_immediate p with
                | Some v => Some (set_secondary i ty (Some v) (i_sval i), r)
                | None => None
                end
    | [] => None
    end
  | TCond =>
    match ps with
    | PName false s _ :: r =>
      match find_name vfpuConditions s with
      | Some v => Some (set_vcond i v, r)
      | None => None
      end
    | _ => None
    end
  | TVec w =>
    match ps with
    | PVec n :: r =>
      if vec_range w (Z.of_N n) then Some (set_primary i (vec_type w) (i_pexp i) (Z.of_N n), r) else None
    | _ => None
    end
  | TWb =>
    match ps with
    | PName false s _ :: r => if String.eqb s "wb" then Some (i, r) else None
    | _ => None
    end
  | TSym c =>
    match ps with
    | PSym d :: r => if Ascii.eqb c d then Some (i, r) else None
    | _ => None
    end
  | TFail => None
  end.

Fixpoint parse_operands (o : mips_opcode) (ts : list tmpl) (i : minst) (ps : list piece) : option (minst * list piece) :=
  match ts with
  | [] => Some (i, ps)
  | t :: ts => match parse_operand o t i ps with
               | Some (i, ps) => parse_operands o ts i ps
               | None => None
               end
  end.

(** [setOmittedRegisters]: MipsParser.cpp 1223-1240. *)
Definition setOmittedRegisters (o : mips_opcode) (r : mregs) : mregs :=
  let r := if mhas o MO_RSD then set_reg r grd (r grs) else r in
  let r := if mhas o MO_RST then set_reg r grt (r grs) else r in
  let r := if mhas o MO_RDT then set_reg r grt (r grd) else r in
  let r := if mhas o MO_FRSD then set_reg r frd (r frs) else r in
  if mhas o MO_RSP_VRSD then set_reg r rspvrd (r rspvrs) else r.

(** [parseParameters]: MipsParser.cpp 1242-1535.  The separator at the end: no piece is left. *)
Definition parseParameters (o : mips_opcode) (i : minst) (ps : list piece) : option minst :=
  let i := if i_vsize i =? -1 then
             if mhas o MO_VFPU_SINGLE then set_vsize i 0
             else if mhas o MO_VFPU_PAIR then set_vsize i 1
             else if mhas o MO_VFPU_TRIPLE then set_vsize i 2
             else if mhas o MO_VFPU_QUAD then set_vsize i 3
             else i
           else i in
  match parse_operands o (template (m_encoding o)) i ps with
  | Some (i, []) => Some (set_regs i (setOmittedRegisters o (i_regs i)))
  | _ => None
  end.

(** A fresh [MipsOpcodeData], [MipsImmediateData] and [MipsRegisterData]: the three [reset] calls of
    [decodeOpcode], MipsParser.cpp 1195-1198. *)
Definition fresh_inst : minst := mkMinst no_regs INone None 0 INone None 0 (-1) (-1).

(** [decodeVfpuType]: MipsParser.cpp 1165-1188. *)
Definition decodeVfpuType (c : ascii) : option Z :=
  if Ascii.eqb c "s" then Some 0 else if Ascii.eqb c "p" then Some 1
  else if Ascii.eqb c "t" then Some 2 else if Ascii.eqb c "q" then Some 3 else None.

(** [decodeOpcode]: MipsParser.cpp 1190-1221. *)
Fixpoint decodeOpcode (pattern name : string) (i : minst) : option minst :=
  match pattern with
  | EmptyString => match name with EmptyString => Some i | _ => None end
  | String "S" p =>
    match name with
    | String c n => match decodeVfpuType c with
                    | Some v => decodeOpcode p n (set_vsize i v)
                    | None => None
                    end
    | EmptyString => None
    end
  | String "B" p =>
    match find_name cop2Conditions name with
    | Some v => decodeOpcode p EmptyString (set_secondary i Cop2BranchType None v)
    | None => None
    end
  | String a p =>
    match name with
    | String c n => if Ascii.eqb a c then decodeOpcode p n i else None
    | EmptyString => None
    end
  end.

(** Whether a table row is looked at: MipsParser.cpp 1550-1560. *)
Definition row_available (a : mips_arch) (o : mips_opcode) : bool :=
  negb (Z.land (m_archs o) (supportSets a) =? 0) &&
  (Z.land (m_archs o) (excludeMask a) =? 0) &&
  (negb (mhas o MO_64BIT) || hasf (archFlags a) MO_64BIT) &&
  (negb (mhas o MO_FPU) || hasf (archFlags a) MO_FPU) &&
  (negb (mhas o MO_DFPU) || hasf (archFlags a) MO_DFPU).

(** [MipsParser::parseOpcode]: MipsParser.cpp 1537-1583. *)
Definition parse_row (a : mips_arch) (name : string) (ps : list piece) (o : mips_opcode) : option minst :=
  if row_available a o then
    match decodeOpcode (m_name o) name fresh_inst with
    | Some i => parseParameters o i ps
    | None => None
    end
  else None.
Fixpoint parse_rows (a : mips_arch) (name : string) (ps : list piece) (t : list mips_opcode) :
  option (mips_opcode * minst) :=
  match t with
  | [] => None
  | o :: t => match parse_row a name ps o with
              | Some i => Some (o, i)
              | None => parse_rows a name ps t
              end
  end.
Definition mips_parse (a : mips_arch) (name : string) (ps : list piece) : option (mips_opcode * minst) :=
  parse_rows a name ps MipsOpcodes.

(** ** Validation *)

(** The state of the MIPS architecture object: Mips.h 38-43. *)
Record mips_state := mkMips {
  ms_arch : mips_arch; ms_fix : bool; ms_delay : bool; ms_delay_reg : Z; ms_slot : bool }.

(** [getImmediateBits]: CMipsInstruction.cpp 26-49. *)
Definition getImmediateBits (t : imm_type) : Z :=
  match t with
  | Immediate5 => 5
  | Immediate7 => 7
  | Immediate10 => 10
  | Immediate16 | ImmediateHalfFloat => 16
  | Immediate20 | Immediate20_0 => 20
  | Immediate25 => 25
  | Immediate26 => 26
  | _ => 0
  end.

(** [evaluateInteger] into an [int]: Expression.h 188-200 (the value is cut to 32 bits). *)
Definition evaluate_int (v : mval) : res Z :=
  match v with VInt z _ => ROk (s32 z) | _ => RErr end.
(** [immediateToHalfFloat]: CMipsInstruction.cpp 51-68. *)
Definition immediateToHalfFloat (v : mval) : res Z :=
  match v with VInt _ h => ROk (s32 h) | VFloat h => ROk (s32 h) | VBad => RErr end.

(** [-x] and [abs(x)] of an [int]. *)
Definition neg_int (x : Z) : res Z := if x =? -2147483648 then RUb else ROk (- x).
Definition abs_int (x : Z) : res Z := if x =? -2147483648 then RUb else ROk (Z.abs x).

Definition rsp_offset_flags : Z := flags [MO_RSP_HWOFFSET; MO_RSP_WOFFSET; MO_RSP_DWOFFSET; MO_RSP_QWOFFSET].
Definition rsp_shift (o : mips_opcode) : Z :=
  if mhas o MO_RSP_HWOFFSET then 1
  else if mhas o MO_RSP_WOFFSET then 2
  else if mhas o MO_RSP_DWOFFSET then 3
  else if mhas o MO_RSP_QWOFFSET then 4
  else 0.

(** What the flags make of the primary immediate: CMipsInstruction.cpp 109-149. *)
Definition adjust_primary (o : mips_opcode) (pc v : Z) : res Z :=
  if mhas o MO_IMMALIGNED && negb (Z.rem v 4 =? 0) then RErr
  else if mhas o MO_NEGIMM then neg_int v
  else if mhas o MO_IPCA then ROk (Z.land (Z.shiftr v 2) 0x3FFFFFF)
  else if mhas o MO_IPCR then
    let num := s32 (v - pc - 4) in
    if (num >? 0x20000) || (num <? -0x20000) then RErr else ROk (Z.shiftr num 2)
  else if mhas o rsp_offset_flags then
    if negb (Z.land v (Z.shiftl 1 (rsp_shift o) - 1) =? 0) then RErr else ROk (Z.shiftr v (rsp_shift o))
  else ROk v.

(** The range check and the mask: CMipsInstruction.cpp 151-161. *)
Definition mask_primary (t : imm_type) (v : Z) : res Z :=
  let mask := Z.shiftr (u32 (Z.shiftl 0xFFFFFFFF (32 - getImmediateBits t))) (32 - getImmediateBits t) in
  do a <- abs_int v;
  if a >? mask then RErr else ROk (Z.land v mask).

(** The primary immediate: CMipsInstruction.cpp 84-162. *)
Definition validate_primary (o : mips_opcode) (pc : Z) (i : minst) : res Z :=
  match i_ptype i with
  | INone => ROk (i_pval i)
  | t =>
    do v <- match i_pexp i with
            | Some e => if imm_type_eq_dec t ImmediateHalfFloat then immediateToHalfFloat e else evaluate_int e
            | None => ROk (i_pval i)
            end;
    do v <- adjust_primary o pc v;
    mask_primary t v
  end.

(** The secondary immediate: CMipsInstruction.cpp 164-202.  [value--] of the smallest [int] and the sum
    in 196 overflow when the result does not fit. *)
Definition validate_secondary (i : minst) (pval : Z) : res Z :=
  match i_stype i with
  | INone => ROk (i_sval i)
  | t =>
    do v <- match i_sexp i with Some e => evaluate_int e | None => ROk (i_sval i) end;
    match t with
    | CacheOp => if u32 v >? 0x1f then RErr else ROk v
    | Ext | Ins =>
      if (v >? 32) || (v =? 0) then RErr
      else if v =? -2147483648 then RUb
      else ROk (match t with Ins => v - 1 + pval | _ => v - 1 end)
    | _ => ROk v
    end
  end.

(** The register whose load is still pending, if the instruction names it: CMipsInstruction.cpp
    209-222. *)
Definition delayed_operand (o : mips_opcode) (r : mregs) (d : Z) : bool :=
  (negb (r grd =? -1) && (r grd =? d)) ||
  (negb (r grs =? -1) && (r grs =? d)) ||
  (negb (r grt =? -1) && (r grt =? d) && negb (mhas o MO_IGNORERTD)).

(** [hasLoadDelay]: Mips.h 36. *)
Definition hasLoadDelay (a : mips_arch) : bool := match a with PSX => true | _ => false end.

(** The result of a successful [Validate]: the two immediates, whether a nop is put in front, whether a
    load delay warning was queued, and the new state of the architecture object. *)
Record mips_valid := mkValid {
  v_pval : Z; v_sval : Z; v_nop : bool; v_warn : bool; v_state : mips_state }.

(** [CMipsInstruction::Validate]: CMipsInstruction.cpp 70-247.  [ignore]: the value of
    [IgnoreLoadDelay] when the instruction was parsed. *)
Definition mips_validate (s : mips_state) (ignore : bool) (pc : Z) (o : mips_opcode) (i : minst) : res mips_valid :=
  if negb (Z.rem pc 4 =? 0) then RErr
  else
    do pval <- validate_primary o pc i;
    do sval <- validate_secondary i pval;
    let warn := hasLoadDelay (ms_arch s) && ms_delay s && negb ignore &&
                delayed_operand o (i_regs i) (ms_delay_reg s) in
    let nop := ms_fix s && warn in
    if mhas o MO_NODELAYSLOT && ms_slot s && negb ignore then RErr
    else
      let delay := if hasLoadDelay (ms_arch s) then mhas o MO_DELAYRT else ms_delay s in
      let reg := if hasLoadDelay (ms_arch s) then i_regs i grt else ms_delay_reg s in
      ROk (mkValid pval sval nop warn (mkMips (ms_arch s) (ms_fix s) delay reg (mhas o MO_DELAY))).

(** [advanceMemory] in 245: the size of the instruction. *)
Definition mips_size (v : mips_valid) : Z := if v_nop v then 8 else 4.

(** ** Encoding *)

Definition or_reg (f : Z -> Z) (r : mregs) (x : slot) (e : Z) : Z :=
  if r x =? -1 then e else Z.lor e (f (r x)).

(** [encodeNormal]: CMipsInstruction.cpp 249-321. *)
Definition encodeNormal (o : mips_opcode) (r : mregs) (pt : imm_type) (pval : Z) (st : imm_type) (sval : Z) : res Z :=
  let e := m_dest o in
  let e := or_reg MIPS_RS r grs e in
  let e := or_reg MIPS_RT r grt e in
  let e := or_reg MIPS_RD r grd e in
  let e := or_reg MIPS_FT r frt e in
  let e := or_reg MIPS_FS r frs e in
  let e := or_reg MIPS_FD r frd e in
  let e := or_reg (fun v => Z.shiftl v 16) r ps2vrt e in
  let e := or_reg (fun v => Z.shiftl v 21) r ps2vrs e in
  let e := or_reg (fun v => Z.shiftl v 6) r ps2vrd e in
  let e := or_reg MIPS_FT r rspvrt e in
  let e := or_reg MIPS_FS r rspvrs e in
  let e := or_reg MIPS_FD r rspvrd e in
  let e := or_reg MIPS_RSP_VE r rspve e in
  let e := or_reg MIPS_RSP_VDE r rspvde e in
  let e := or_reg MIPS_RSP_VEALT r rspvealt e in
  let e := if mhas o MO_VFPU_MIXED then e else or_reg (fun v => Z.shiftl v 16) r vrt e in
  let e := match pt with
           | Immediate5 | Immediate10 | Immediate20 => Z.lor e (Z.shiftl pval 6)
           | Immediate16 | Immediate25 | Immediate26 | Immediate20_0 | Immediate7 | ImmediateHalfFloat => Z.lor e pval
           | _ => e
           end in
  (* a negative number shifted to the left *)
  do e <- match st with
          | CacheOp => if sval <? 0 then RUb else ROk (Z.lor e (Z.shiftl sval 16))
          | Ext | Ins => if sval <? 0 then RUb else ROk (Z.lor e (Z.shiftl sval 11))
          | Cop2BranchType => if sval <? 0 then RUb else ROk (Z.lor e (Z.shiftl sval 18))
          | _ => ROk e
          end;
  let e := if mhas o MO_VFPU_MIXED
           then Z.lor (Z.lor e (Z.shiftr (r vrt) 5)) (Z.shiftl (Z.land (r vrt) 0x1F) 16)
           else e in
  ROk (u32 e).

(** [encodeVfpu]: CMipsInstruction.cpp 323-353. *)
Definition encodeVfpu (o : mips_opcode) (r : mregs) (pt : imm_type) (pval : Z) (vsize vcond : Z) : res Z :=
  let e := m_dest o in
  let e := if vcond =? -1 then e else Z.lor e vcond in
  let e := or_reg (fun v => v) r vrd e in
  let e := or_reg (fun v => Z.shiftl v 8) r vrs e in
  let e := or_reg (fun v => Z.shiftl v 16) r vrt e in
  let e := if negb (vsize =? -1) &&
              negb (mhas o (flags [MO_VFPU_PAIR; MO_VFPU_SINGLE; MO_VFPU_TRIPLE; MO_VFPU_QUAD]))
           then let e := if Z.land vsize 1 =? 0 then e else Z.lor e (Z.shiftl 1 7) in
                if Z.land vsize 2 =? 0 then e else Z.lor e (Z.shiftl 1 15)
           else e in
  let e := or_reg (fun v => Z.shiftl v 16) r grt e in
  let e := match pt with
           | Immediate5 => Z.lor e (Z.shiftl pval 16)
           | Immediate7 => Z.lor e pval
           | _ => e
           end in
  ROk (u32 e).

(** [CMipsInstruction::Encode]: CMipsInstruction.cpp 355-364, as the list of words written. *)
Definition mips_encode (o : mips_opcode) (i : minst) (v : mips_valid) : res (list Z) :=
  do w <- (if mhas o MO_VFPU then encodeVfpu o (i_regs i) (i_ptype i) (v_pval v) (i_vsize i) (i_vcond i)
           else encodeNormal o (i_regs i) (i_ptype i) (v_pval v) (i_stype i) (v_sval v));
  ROk (if v_nop v then [0; w] else [w]).

(** One instruction from its text to the words in the output. *)
Record mips_out := mkOut { x_words : list Z; x_state : mips_state; x_warn : bool }.
Definition mips_assemble (s : mips_state) (ignore : bool) (pc : Z) (name : string) (ps : list piece) : res mips_out :=
  match mips_parse (ms_arch s) name ps with
  | None => RErr
  | Some (o, i) =>
    do v <- mips_validate s ignore pc o i;
    do ws <- mips_encode o i v;
    ROk (mkOut ws (v_state v) (v_warn v))
  end.
