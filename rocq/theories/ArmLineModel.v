(** Model of the ARM-mode instruction parser, Archs/ARM/ArmParser.cpp, from the tokens of a line to
    the word that is written.

    Tokens and expressions are those of ParseModel.v.  The members of [ArmOpcodeVariables]
    (Archs/ARM/CArmInstruction.h 7-60) have no initializers; a variable that was never written is
    [None], and reading it in [Encode] is undefined behaviour.  All rows of the table that are tried
    work on the same variables, so what a failing row wrote stays.  Simplified: of a register list
    that fails, and of a mnemonic that does not match, nothing is kept; no later row reads those
    variables without writing them first. *)

Require Import ZArith Bool List String Ascii.
Require Import Verif.Ints Verif.Res Verif.ExprModel Verif.ParseModel Verif.FloatModel Verif.ArmModel.
Import ListNotations.
Local Open Scope Z_scope.

(** Numeric members of [ArmOpcodeVariables]; truth values are 0 and 1. *)
Inductive var :=
| VUseShift | VByReg | VShiftType | VShiftReg
| VSpsr | VField | VCd | VCn | VCm | VPn | VRs | VRm | VRd | VRn
| VPsr | VWriteback | VSignPlus | VBitLen | VRlist.
(** Members that hold expressions. *)
Inductive xvar := XShift | XCpop | XCpinf | XImm.
Scheme Equality for var.
Scheme Equality for xvar.
Record vars := mkVars { v_num : var -> option Z; v_exp : xvar -> option expr }.
Definition no_vars : vars := mkVars (fun _ => None) (fun _ => None).
Definition set (k : var) (x : Z) (v : vars) : vars :=
  mkVars (fun j => if var_beq k j then Some x else v_num v j) (v_exp v).
Definition setx (k : xvar) (x : expr) (v : vars) : vars :=
  mkVars (v_num v) (fun j => if xvar_beq k j then Some x else v_exp v j).

(** Outcome of reading operands: success with the tokens that are left, failure, or undefined
    behaviour. *)
Inductive pres :=
| Got (v : vars) (rest : list token)
| Miss (v : vars)
| Crash.

(** * Registers *)

Local Open Scope string_scope.
(** [armRegisters], 16-22. *)
Definition armRegisters : list (string * Z) := [
  ("r0", 0); ("r1", 1); ("r2", 2); ("r3", 3); ("r4", 4); ("r5", 5); ("r6", 6); ("r7", 7);
  ("r8", 8); ("r9", 9); ("r10", 10); ("r11", 11); ("r12", 12); ("r13", 13); ("sp", 13); ("r14", 14);
  ("lr", 14); ("r15", 15); ("pc", 15)]%Z.
(** [armCopRegisters], 24-29. *)
Definition armCopRegisters : list (string * Z) := [
  ("c0", 0); ("c1", 1); ("c2", 2); ("c3", 3); ("c4", 4); ("c5", 5); ("c6", 6); ("c7", 7);
  ("c8", 8); ("c9", 9); ("c10", 10); ("c11", 11); ("c12", 12); ("c13", 13); ("c14", 14); ("c15", 15)]%Z.
(** [armCopNumbers], 31-36. *)
Definition armCopNumbers : list (string * Z) := [
  ("p0", 0); ("p1", 1); ("p2", 2); ("p3", 3); ("p4", 4); ("p5", 5); ("p6", 6); ("p7", 7);
  ("p8", 8); ("p9", 9); ("p10", 10); ("p11", 11); ("p12", 12); ("p13", 13); ("p14", 14); ("p15", 15)]%Z.
Local Close Scope string_scope.

(** [parseRegisterTable], 108-127: the number and the tokens left. *)
Fixpoint lookup (n : string) (t : list (string * Z)) : option Z :=
  match t with
  | [] => None
  | (m, k) :: r => if String.eqb n m then Some k else lookup n r
  end.
Definition parseRegisterTable (ts : list token) (t : list (string * Z)) : option (Z * list token) :=
  match ts with
  | TIdent n :: r => match lookup n t with Some k => Some (k, r) | None => None end
  | _ => None
  end.
(** [parseRegister], 129-135: the variable is written even if the number is too large. *)
Definition parseRegister (k : var) (max : Z) (v : vars) (ts : list token) : pres :=
  match parseRegisterTable ts armRegisters with
  | Some (n, r) => if n <=? max then Got (set k n v) r else Miss (set k n v)
  | None => Miss v
  end.
(** [parseCopRegister] and [parseCopNumber], 137-145. *)
Definition parseCop (t : list (string * Z)) (k : var) (v : vars) (ts : list token) : pres :=
  match parseRegisterTable ts t with
  | Some (n, r) => Got (set k n v) r
  | None => Miss v
  end.

(** [dest |= (1 << i)] for i from a to b, 165-168. *)
Fixpoint range_mask (a : Z) (n : nat) : Z :=
  match n with
  | O => 0
  | S m => Z.lor (Z.shiftl 1 a) (range_mask (a + 1) m)
  end.
(** [parseRegisterList], 147-182, with [validMask] = 0xFFFF. *)
Fixpoint parse_list (acc : Z) (ts : list token) : option (Z * list token) :=
  match ts with
  | TIdent n :: r =>
      match lookup n armRegisters with
      | None => None
      | Some a =>
          match r with
          | TMinus :: TIdent m :: r' =>
              match lookup m armRegisters with
              | None => None
              | Some b =>
                  if b <? a then None
                  else
                    let acc := Z.lor acc (range_mask a (Z.to_nat (b - a + 1))) in
                    match r' with
                    | TComma :: r'' => parse_list acc r''
                    | _ => Some (acc, r')
                    end
              end
          | TMinus :: _ => None
          | TComma :: r'' => parse_list (Z.lor acc (Z.shiftl 1 a)) r''
          | _ => Some (Z.lor acc (Z.shiftl 1 a), r)
          end
      end
  | _ => None
  end.
Definition parseRegisterList (v : vars) (ts : list token) : pres :=
  match parse_list 0 ts with
  | Some (m, r) => if Z.land 0xFFFF m =? m then Got (set VRlist m v) r else Miss v
  | None => Miss v
  end.

(** * Status registers, 476-551 *)

(** [startsWith], Util/Util.cpp 256-265, and the text after the prefix. *)
Fixpoint after (p s : string) : option string :=
  match p, s with
  | EmptyString, _ => Some s
  | String a p', String b s' => if Ascii.eqb a b then after p' s' else None
  | String _ _, EmptyString => None
  end.
(** The loop over the field letters, 519-548: at most four, what follows is ignored. *)
Definition field_bit (c : ascii) : option Z :=
  (if Ascii.eqb c "f" then Some 8 else if Ascii.eqb c "s" then Some 4
   else if Ascii.eqb c "x" then Some 2 else if Ascii.eqb c "c" then Some 1 else None)%char.
Fixpoint psr_fields (n : nat) (s : string) (f : Z) : option Z :=
  match n, s with
  | O, _ => Some f
  | _, EmptyString => Some f
  | S m, String c r =>
      match field_bit c with
      | Some b => if Z.land f b =? 0 then psr_fields m r (Z.lor f b) else None
      | None => None
      end
  end.
(** The text of one status register operand: spsr?, field mask. *)
Definition psr_text (short : bool) (s : string) : option (bool * Z) :=
  let go (spsr : bool) (r : string) : option (bool * Z) :=
    match r with
    | EmptyString => Some (spsr, 0xF)
    | String c r1 =>
        if short then None
        else if negb (Ascii.eqb c "_") then None
        else match after "ctl" r1 with
             | Some r2 => if String.eqb r2 "" then Some (spsr, 1) else None
             | None =>
               match after "flg" r1 with
               | Some r2 => if String.eqb r2 "" then Some (spsr, 8) else None
               | None => match psr_fields 4 r1 0 with Some f => Some (spsr, f) | None => None end
               end
             end
    end in
  match after "cpsr" s with
  | Some r => go false r
  | None => match after "spsr" s with Some r => go true r | None => None end
  end.
(** [parsePsrTransfer]; the short version does not write [field], 495-496. *)
Definition parsePsrTransfer (short : bool) (v : vars) (ts : list token) : pres :=
  match ts with
  | TIdent s :: r =>
      match psr_text short s with
      | Some (spsr, f) =>
          let v := set VSpsr (if spsr then 1 else 0) v in
          Got (if short then v else set VField f v) r
      | None => Miss v
      end
  | _ => Miss v
  end.

Section Line.
  (** The functions of expressions and the place identifiers are resolved in, as in ParseModel.v. *)
  Variable isfun : string -> bool.
  Variables file section : Z.

  (** [parseImmediate], 184-208. *)
  Definition parseImmediate (ts : list token) : option (expr * list token) :=
    match ts with
    | TIdent n :: _ =>
        match psr_text false n, lookup n armRegisters, lookup n armCopNumbers, lookup n armCopRegisters with
        | None, None, None, None => parse_expression isfun file section ts
        | _, _, _, _ => None
        end
    | _ => parse_expression isfun file section ts
    end.
  Definition immediate (k : xvar) (v : vars) (ts : list token) : pres :=
    match parseImmediate ts with
    | Some (e, r) => Got (setx k e v) r
    | None => Miss v
    end.

  (** * Shifts, 243-348 *)

  (** The digits at the end of a name, last one first, and the name without them, 261-270. *)
  Definition digit_of (c : ascii) : option Z :=
    let n := Z.of_nat (nat_of_ascii c) in if (48 <=? n) && (n <=? 57) then Some (n - 48) else None.
  Fixpoint split_digits (s : list ascii) : list Z * list ascii :=
    match s with
    | c :: r => match digit_of c with
                | Some d => let '(ds, t) := split_digits r in (d :: ds, t)
                | None => ([], s)
                end
    | [] => ([], [])
    end.
  (** [number], 258-270. *)
  Fixpoint digits_value (ds : list Z) : Z :=
    match ds with
    | [] => 0
    | d :: r => d + 10 * digits_value r
    end.
  (** 272-283 *)
  Definition shift_mode (s : string) : option Z :=
    (if (s =? "lsl") || (s =? "asl") then Some ARM_SHIFT_LSL else if s =? "lsr" then Some ARM_SHIFT_LSR
     else if s =? "asr" then Some ARM_SHIFT_ASR else if s =? "ror" then Some ARM_SHIFT_ROR
     else if s =? "rrx" then Some ARM_SHIFT_RRX else None)%string.
  Definition skip_hash (ts : list token) : list token := match ts with THash :: r => r | _ => ts end.
  (** The amount of a shift: a register or a number, 289-303 and 313-326. *)
  Definition shift_amount (immOnly : bool) (v : vars) (ts : list token) : pres :=
    match parseRegisterTable ts armRegisters with
    | Some (n, r) =>
        let v := set VShiftReg n v in
        if immOnly then Miss v else Got (set VUseShift 1 (set VByReg 1 v)) r
    | None =>
        match immediate XShift v (skip_hash ts) with
        | Got v r => Got (set VUseShift 1 (set VByReg 0 v)) r
        | res => res
        end
    end.
  (** [parseShift], 243-307.  With 19 or more digits [multiplier] overflows, 266. *)
  Definition parseShift (immOnly : bool) (v : vars) (ts : list token) : pres :=
    let v := set VUseShift 0 v in
    match ts with
    | TComma :: TIdent n :: r =>
        let '(ds, t) := split_digits (rev (list_ascii_of_string n)) in
        if (19 <=? Z.of_nat (List.length ds)) then Crash
        else
          match shift_mode (string_of_list_ascii (rev t)) with
          | None => Miss v
          | Some m =>
              let v := set VShiftType m v in
              match ds with
              | [] => shift_amount immOnly v r
              | _ => Got (set VUseShift 1 (set VByReg 0 (setx XShift (EInt (digits_value ds)) v))) r
              end
          end
    | TComma :: _ => Miss v
    | _ => Got v ts
    end.
  (** [parsePseudoShift], 309-328. *)
  Definition parsePseudoShift (ty : Z) (v : vars) (ts : list token) : pres :=
    shift_amount false (set VShiftType ty v) ts.

  (** * Operands, 553-654 *)

  (** One step of the loop over the mask. *)
  Inductive mitem :=
  | MReg (k : var) (max : Z)
  | MCopReg (k : var)
  | MWriteback | MPsr
  | MPsrTransfer (short : bool)
  | MList
  | MShift (immOnly : bool)
  | MImm (len : Z)
  | MCopNumber | MCopOp | MCopInf
  | MPseudoShift (ty : Z)
  | MSign
  | MSymbol (c : ascii) (optional : bool).

  Definition reg_max (k : ascii) : Z := if Ascii.eqb k "1" then 14 else 15.
  Definition char_value (c : ascii) : Z := Z.of_nat (nat_of_ascii c).
  (** The switch of 569-648 as a translation of the mask; placeholders take the next character as
      argument.  Upper case I and i are the same here, 606-610. *)
  Fixpoint items (optional : bool) (m : string) : list mitem :=
    match m with
    | EmptyString => []
    | String c r =>
        let arg (f : ascii -> mitem) : list mitem :=
          match r with String k r' => f k :: items false r' | EmptyString => [f zero] end in
        if Ascii.eqb c "/" && negb optional then items true r
        else if Ascii.eqb c "d" then arg (fun k => MReg VRd (reg_max k))
        else if Ascii.eqb c "s" then arg (fun k => MReg VRs (reg_max k))
        else if Ascii.eqb c "n" then arg (fun k => MReg VRn (reg_max k))
        else if Ascii.eqb c "m" then arg (fun k => MReg VRm (reg_max k))
        else if Ascii.eqb c "D" then MCopReg VCd :: items false r
        else if Ascii.eqb c "N" then MCopReg VCn :: items false r
        else if Ascii.eqb c "M" then MCopReg VCm :: items false r
        else if Ascii.eqb c "W" then MWriteback :: items false r
        else if Ascii.eqb c "p" then MPsr :: items false r
        else if Ascii.eqb c "P" then arg (fun k => MPsrTransfer (Ascii.eqb k "1"))
        else if Ascii.eqb c "R" then MList :: items false r
        else if Ascii.eqb c "S" then arg (fun k => MShift (Ascii.eqb k "1"))
        else if Ascii.eqb c "I" || Ascii.eqb c "i" then MImm 32 :: items false r
        else if Ascii.eqb c "j" then arg (fun k => MImm (char_value k))
        else if Ascii.eqb c "X" then MCopNumber :: items false r
        else if Ascii.eqb c "Y" then MCopOp :: items false r
        else if Ascii.eqb c "Z" then MCopInf :: items false r
        else if Ascii.eqb c "z" then arg (fun k => MPseudoShift (char_value k))
        else if Ascii.eqb c "v" then MSign :: items false r
        else MSymbol c optional :: items false r
    end%char.

  (** [matchSymbol], 210-236, with [Parser::matchToken], Parser/Parser.cpp 265-276. *)
  Definition symbol_token (c : ascii) : option token :=
    (if Ascii.eqb c "[" then Some TLBrack else if Ascii.eqb c "]" then Some TRBrack
     else if Ascii.eqb c "," then Some TComma else if Ascii.eqb c "!" then Some TExclamation
     else if Ascii.eqb c "{" then Some TLBrace else if Ascii.eqb c "}" then Some TRBrace
     else if Ascii.eqb c "#" then Some THash else if Ascii.eqb c "=" then Some TAssign
     else if Ascii.eqb c "+" then Some TPlus else None)%char.
  (** Equality of the types of two tokens, for the types of [symbol_token]. *)
  Definition same_type (a b : token) : bool :=
    match a, b with
    | TLBrack, TLBrack | TRBrack, TRBrack | TComma, TComma | TExclamation, TExclamation
    | TLBrace, TLBrace | TRBrace, TRBrace | THash, THash | TAssign, TAssign | TPlus, TPlus => true
    | _, _ => false
    end.
  Definition matchSymbol (c : ascii) (optional : bool) (v : vars) (ts : list token) : pres :=
    match symbol_token c with
    | None => Miss v
    | Some t =>
        if same_type t (peek ts) then Got v (tl ts)
        else if optional then Got v ts else Miss v
    end.

  (** The cases of the switch: parseWriteback 449-454, parsePsr 456-461, parseSign 463-474. *)
  Definition run_item (it : mitem) (v : vars) (ts : list token) : pres :=
    match it with
    | MReg k max => parseRegister k max v ts
    | MCopReg k => parseCop armCopRegisters k v ts
    | MWriteback => match ts with
                    | TExclamation :: r => Got (set VWriteback 1 v) r
                    | _ => Got (set VWriteback 0 v) ts
                    end
    | MPsr => match ts with
              | TCaret :: r => Got (set VPsr 1 v) r
              | _ => Got (set VPsr 0 v) ts
              end
    | MPsrTransfer short => parsePsrTransfer short v ts
    | MList => parseRegisterList v ts
    | MShift immOnly => parseShift immOnly v ts
    | MImm len => match immediate XImm v ts with Got v r => Got (set VBitLen len v) r | res => res end
    | MCopNumber => parseCop armCopNumbers VPn v ts
    | MCopOp => match immediate XCpop v ts with Got v r => Got (set VBitLen 4 v) r | res => res end
    | MCopInf => match immediate XCpinf v ts with Got v r => Got (set VBitLen 3 v) r | res => res end
    | MPseudoShift ty => parsePseudoShift ty v ts
    | MSign => match ts with
               | TPlus :: r => Got (set VSignPlus 1 v) r
               | TMinus :: r => Got (set VSignPlus 0 v) r
               | _ => Got (set VSignPlus 1 v) ts
               end
    | MSymbol c optional => matchSymbol c optional v ts
    end.
  (** The loop; at the end the next token has to be a separator, 650-653. *)
  Fixpoint run_items (its : list mitem) (v : vars) (ts : list token) : pres :=
    match its with
    | [] => match ts with
            | TSeparator :: r => Got v r
            | _ => Miss v
            end
    | it :: r => match run_item it v ts with
                 | Got v' ts' => run_items r v' ts'
                 | res => res
                 end
    end.
  (** [parseArmParameters], 553-654. *)
  Definition parseArmParameters (mask : string) (v : vars) (ts : list token) : pres :=
    let v := set VUseShift 0 (set VPsr 0 (set VWriteback 0 (set VSignPlus 0 v))) in
    run_items (items false mask) v ts.

  (** * Mnemonics, 330-447 *)

  (** What a mnemonic says beside the operation: members of [vars.Opcode]. *)
  Record suffixes := mkSuf { u_c : Z; u_a : Z; u_s : bool; u_x : bool; u_y : bool }.

  (** [decodeCondition], 330-361: the condition and the text after it. *)
  Definition condition_of (a b : ascii) : option Z :=
    let is x y := Ascii.eqb a x && Ascii.eqb b y in
    (if is "e" "q" then Some 0 else if is "n" "e" then Some 1
     else if is "c" "s" then Some 2 else if is "h" "s" then Some 2
     else if is "c" "c" then Some 3 else if is "l" "o" then Some 3
     else if is "m" "i" then Some 4 else if is "p" "l" then Some 5
     else if is "v" "s" then Some 6 else if is "v" "c" then Some 7
     else if is "h" "i" then Some 8 else if is "l" "s" then Some 9
     else if is "g" "e" then Some 10 else if is "l" "t" then Some 11
     else if is "g" "t" then Some 12 else if is "l" "e" then Some 13
     else if is "a" "l" then Some 14 else None)%char.
  Definition decodeCondition (s : string) : Z * string :=
    match s with
    | String a (String b r) => match condition_of a b with Some c => (c, r) | None => (14, s) end
    | _ => (14, s)
    end.
  (** [decodeAddressingMode], 363-387. *)
  Definition mode_of (a b : ascii) : option Z :=
    let is x y := Ascii.eqb a x && Ascii.eqb b y in
    (if is "i" "b" then Some 0 else if is "i" "a" then Some 1
     else if is "d" "b" then Some 2 else if is "d" "a" then Some 3
     else if is "e" "d" then Some 4 else if is "f" "d" then Some 5
     else if is "e" "a" then Some 6 else if is "f" "a" then Some 7 else None)%char.
  (** [decodeXY], 389-404. *)
  Definition xy_of (c : ascii) : option bool :=
    (if Ascii.eqb c "t" then Some true else if Ascii.eqb c "b" then Some false else None)%char.
  (** [decodeArmOpcode], 413-447: the template [t] against the text [s]; [decodeS], 406-411. *)
  Fixpoint decode_name (t s : string) (u : suffixes) : option suffixes :=
    match t with
    | EmptyString => match s with EmptyString => Some u | _ => None end
    | String k t' =>
        if Ascii.eqb k "C" then
          let '(c, r) := decodeCondition s in decode_name t' r (mkSuf c (u_a u) (u_s u) (u_x u) (u_y u))
        else if Ascii.eqb k "S" then
          match s with
          | String a r => if Ascii.eqb a "s" then decode_name t' r (mkSuf (u_c u) (u_a u) true (u_x u) (u_y u))
                          else decode_name t' s (mkSuf (u_c u) (u_a u) false (u_x u) (u_y u))
          | EmptyString => decode_name t' s (mkSuf (u_c u) (u_a u) false (u_x u) (u_y u))
          end
        else if Ascii.eqb k "A" then
          match s with
          | String a (String b r) =>
              match mode_of a b with
              | Some m => decode_name t' r (mkSuf (u_c u) m (u_s u) (u_x u) (u_y u))
              | None => None
              end
          | _ => None
          end
        else if Ascii.eqb k "X" then
          match s with
          | String a r => match xy_of a with
                          | Some x => decode_name t' r (mkSuf (u_c u) (u_a u) (u_s u) x (u_y u))
                          | None => None
                          end
          | EmptyString => None
          end
        else if Ascii.eqb k "Y" then
          match s with
          | String a r => match xy_of a with
                          | Some y => decode_name t' r (mkSuf (u_c u) (u_a u) (u_s u) (u_x u) y)
                          | None => None
                          end
          | EmptyString => None
          end
        else
          match s with
          | String a r => if Ascii.eqb k a then decode_name t' r u else None
          | EmptyString => None
          end
    end%char.
  Definition decodeArmOpcode (name : string) (o : arm_opcode) : option suffixes :=
    decode_name (op_name o) name (mkSuf 0 0 false false false).

  (** * Lines *)

  (** [parseArmOpcode], 656-697: the row and its variables, an error, or undefined behaviour. *)
  Inductive lres :=
  | LOpcode (o : arm_opcode) (u : suffixes) (v : vars) (rest : list token)
  | LError
  | LCrash.
  Definition is_gba (a : arm_arch) : bool := match a with AARCH_GBA => true | _ => false end.
  Fixpoint try_rows (arch : arm_arch) (name : string) (rows : list arm_opcode) (v : vars) (ts : list token) : lres :=
    match rows with
    | [] => LError
    | o :: r =>
        if has o ARM_ARM9 && is_gba arch then try_rows arch name r v ts
        else
          match decodeArmOpcode name o with
          | None => try_rows arch name r v ts
          | Some u =>
              match parseArmParameters (op_mask o) v ts with
              | Got v' rest => LOpcode o u v' rest
              | Miss v' => try_rows arch name r v' ts
              | Crash => LCrash
              end
          end
    end.
  Definition parseArmOpcode (arch : arm_arch) (ts : list token) : lres :=
    match ts with
    | TIdent name :: r => try_rows arch name ArmOpcodes no_vars r
    | _ => LError
    end.

  (** * From the variables to the word *)

  (** The variables that [Validate] and [Encode] (Archs/ARM/CArmInstruction.cpp 65-330 and 504-679)
      read for a row.  Reads whose result is not used are left out. *)
  Definition when (b : bool) (l : list var) : list var := if b then l else [].
  Definition reads_num (o : arm_opcode) (v : vars) : list var :=
    let ty := op_type o in
    let shift := match v_num v VUseShift with Some 1 => true | _ => false end in
    let byreg := match v_num v VByReg with Some 1 => true | _ => false end in
    when shift ([VByReg; VShiftType] ++ when byreg [VShiftReg]) ++
    when (has o ARM_DN) [VRd] ++ when (has o ARM_DM) [VRd] ++
    when (has o ARM_IMMEDIATE) [VBitLen] ++
    when (ty =? ARM_TYPE3) [VRn] ++
    when (ty =? ARM_TYPE5)
      (when (has o ARM_N && negb (has o ARM_DN)) [VRn] ++ when (has o ARM_D) [VRd] ++
       when (negb (has o ARM_IMMEDIATE) && has o ARM_REGISTER && negb (has o ARM_DM)) [VRm]) ++
    when (ty =? ARM_TYPE6)
      (VSpsr :: (if has o ARM_MRS then [VRd] else VField :: when (has o ARM_REGISTER) [VRm])) ++
    when (ty =? ARM_TYPE7) (VRd :: VRs :: when (negb (has o ARM_DM)) [VRm] ++ when (has o ARM_N) [VRn]) ++
    when (ty =? ARM_TYPE9)
      (VWriteback :: when (has o ARM_N) [VRn] ++ when (has o ARM_D) [VRd] ++ when (has o ARM_SIGN) [VSignPlus] ++
       when (negb (has o ARM_IMMEDIATE) && has o ARM_REGISTER) [VRm]) ++
    when (ty =? ARM_TYPE10)
      (VWriteback :: VRn :: VRd :: when (has o ARM_SIGN) [VSignPlus] ++
       when (negb (has o ARM_IMMEDIATE) && has o ARM_REGISTER) [VRm]) ++
    when (ty =? ARM_TYPE11) (VPsr :: VWriteback :: VRlist :: when (has o ARM_N) [VRn]) ++
    when ((ty =? ARM_TYPE12) || (ty =? ARM_MISC)) (VRd :: when (negb (has o ARM_DM)) [VRm] ++ when (has o ARM_N) [VRn]) ++
    when (ty =? ARM_TYPE14) [VCn; VCd; VPn; VCm] ++
    when (ty =? ARM_TYPE16) [VCn; VRd; VPn; VCm] ++
    when (ty =? ARM_TYPE17) [VRn; VRd; VPn; VCm].
  Definition is_set (v : vars) (k : var) : bool := match v_num v k with Some _ => true | None => false end.
  Definition num (v : vars) (k : var) : Z := match v_num v k with Some x => x | None => 0 end.
  Definition truth (v : vars) (k : var) : bool := num v k =? 1.

  (** The constructor, CArmInstruction.cpp 30-35. *)
  Definition arm_input (arch : arm_arch) (o : arm_opcode) (u : suffixes) (v : vars) : arm_in :=
    mkArmIn o (u_c u) (u_a u) (u_s u) (u_x u) (u_y u)
      (truth v VUseShift) (truth v VByReg) (num v VShiftType) (num v VShiftReg)
      (truth v VSpsr) (num v VField) (num v VCd) (num v VCn) (num v VCm) (num v VPn)
      (num v VRs) (num v VRm) (num v VRd) (num v VRn)
      (truth v VPsr) (truth v VWriteback) (truth v VSignPlus) (num v VBitLen) (num v VRlist) arch.

  (** Evaluation of the expressions: [evaluateInteger], Core/Expression.h 188-200, and the switch of
      CArmInstruction.cpp 150-166; [nan] stands for the bits of a NaN. *)
  Definition as_int (x : option value) : option Z := match x with Some (VInt z) => Some z | _ => None end.
  Definition as_imm (nan : Z) (x : option value) : imm_value :=
    match x with
    | Some (VInt z) => IInt z
    | Some (VFloat f) => IFloat (get_float_bits nan (to_single f))
    | _ => IBad
    end.
  Definition arm_values (nan : Z) (ev : expr -> value) (v : vars) : arm_eval :=
    mkArmEval (as_int (option_map ev (v_exp v XShift))) (as_int (option_map ev (v_exp v XCpop)))
              (as_int (option_map ev (v_exp v XCpinf))) (as_imm nan (option_map ev (v_exp v XImm))).

  (** Validate and Encode with the literal pool: if the value went to the pool, the pool calls
      [setPoolAddress] with the place [pool] of the value before the instruction is encoded
      (Archs/ARM/Pool.cpp 37-67).  Result: the word and the value in the pool. *)
  Definition with_imm (s : arm_st) (x : Z) : arm_st :=
    mkArmSt (o_rn s) (o_rm s) (o_final s) (o_shift_amount s) (o_cpop s) (o_cpinf s) x (o_negative s)
            (o_newenc s) (o_newtype s) (o_pool s).
  Definition arm_emit (i : arm_in) (ramPos : Z) (e : arm_eval) (pool : Z) : res (Z * option Z) :=
    do s <- arm_validate i ramPos e;
    match o_pool s with
    | None => do w <- arm_encode i s; ROk (w, None)
    | Some x =>
        do off <- arm_pool_offset ramPos pool;
        do w <- arm_encode i (with_imm s off);
        ROk (w, Some x)
    end.

  (** The whole way of one line: tokens to the word and the value in the pool. *)
  Definition arm_line (arch : arm_arch) (nan : Z) (ev : expr -> value) (ts : list token) (ramPos pool : Z)
    : res (Z * option Z) :=
    match parseArmOpcode arch ts with
    | LError => RErr
    | LCrash => RUb
    | LOpcode o u v _ =>
        if forallb (is_set v) (reads_num o v)
        then arm_emit (arm_input arch o u v) ramPos (arm_values nan ev v) pool
        else RUb
    end.
End Line.
