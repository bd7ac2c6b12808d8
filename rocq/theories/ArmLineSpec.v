(** Source lines of ARM instructions, stated on their own: how mnemonics are spelled, how operands are
    laid out, and what the line asks for.  Expressions are those of ParseModel.v (properties C03, C04). *)

Require Import ZArith Bool List String Ascii.
Require Import Verif.Ints Verif.ExprModel Verif.ParseModel Verif.FloatModel Verif.ArmModel Verif.ArmSpec Verif.ArmIface
  Verif.ArmWordSpec.
Import ListNotations.
Local Open Scope Z_scope.

(** * Mnemonics *)

Local Open Scope string_scope.
Definition condition_names : list (string * Z) := [
  ("", 14); ("eq", 0); ("ne", 1); ("cs", 2); ("hs", 2); ("cc", 3); ("lo", 3); ("mi", 4); ("pl", 5); ("vs", 6); ("vc", 7);
  ("hi", 8); ("ls", 9); ("ge", 10); ("lt", 11); ("gt", 12); ("le", 13); ("al", 14)]%Z.
Definition mode_names : list (string * Z) := [
  ("ib", 0); ("ia", 1); ("db", 2); ("da", 3); ("ed", 4); ("fd", 5); ("ea", 6); ("fa", 7)]%Z.
Definition half_names : list (string * bool) := [("t", true); ("b", false)].
Local Close Scope string_scope.

(** The suffixes of a mnemonic; without a place for it, a suffix has a default. *)
Record said := mkSaid { w_c : Z; w_mode : Z; w_s : bool; w_x : bool; w_y : bool }.

(** [spells t s u]: the text [s] is the mnemonic [t] with the suffixes [u].  In [t], C stands for a
    condition, S for an optional s, A for an addressing mode, X and Y for t (top) or b (bottom). *)
Definition letter (c : ascii) : bool :=
  negb (Ascii.eqb c "C" || Ascii.eqb c "S" || Ascii.eqb c "A" || Ascii.eqb c "X" || Ascii.eqb c "Y").
Inductive spells : string -> string -> said -> Prop :=
| sp_end : spells "" "" (mkSaid 14 0 false false false)
| sp_letter c t s u : letter c = true -> spells t s u -> spells (String c t) (String c s) u
| sp_cond n c t s u : In (n, c) condition_names -> spells t s u ->
    spells (String "C" t) (n ++ s)%string (mkSaid c (w_mode u) (w_s u) (w_x u) (w_y u))
| sp_s b t s u : spells t s u ->
    spells (String "S" t) ((if b : bool then "s" else "") ++ s)%string (mkSaid (w_c u) (w_mode u) b (w_x u) (w_y u))
| sp_mode n m t s u : In (n, m) mode_names -> spells t s u ->
    spells (String "A" t) (n ++ s)%string (mkSaid (w_c u) m (w_s u) (w_x u) (w_y u))
| sp_x n b t s u : In (n, b) half_names -> spells t s u ->
    spells (String "X" t) (n ++ s)%string (mkSaid (w_c u) (w_mode u) (w_s u) b (w_y u))
| sp_y n b t s u : In (n, b) half_names -> spells t s u ->
    spells (String "Y" t) (n ++ s)%string (mkSaid (w_c u) (w_mode u) (w_s u) (w_x u) b).

(** The mnemonic without suffixes. *)
Fixpoint bare (t : string) : string :=
  match t with
  | EmptyString => EmptyString
  | String c r => if letter c then String c (bare r) else bare r
  end.

(** * Operands *)

Definition numbered (p : string) : list (string * Z) :=
  combine (map (fun d => p ++ d)%string ["0"; "1"; "2"; "3"; "4"; "5"; "6"; "7"; "8"; "9"; "10"; "11"; "12"; "13"; "14"; "15"]%string)
          [0; 1; 2; 3; 4; 5; 6; 7; 8; 9; 10; 11; 12; 13; 14; 15].
Definition register (n : string) (x : Z) : Prop :=
  In (n, x) (numbered "r" ++ [("sp", 13); ("lr", 14); ("pc", 15)]%string).
Definition cop_register (n : string) (x : Z) : Prop := In (n, x) (numbered "c").
Definition cop_number (n : string) (x : Z) : Prop := In (n, x) (numbered "p").

(** Register lists: registers and ranges, separated by commas; [l]: the ranges. *)
Definition next_is (t : token) (ts : list token) : Prop := match ts with x :: _ => x = t | [] => False end.
Inductive list_items : list token -> list (Z * Z) -> list token -> Prop :=
| li_one n a r : register n a -> ~ next_is TComma r -> ~ next_is TMinus r -> list_items (TIdent n :: r) [(a, a)] r
| li_range n m a b r : register n a -> register m b -> a <= b -> ~ next_is TComma r ->
    list_items (TIdent n :: TMinus :: TIdent m :: r) [(a, b)] r
| li_one_more n a ts l r : register n a -> list_items ts l r -> list_items (TIdent n :: TComma :: ts) ((a, a) :: l) r
| li_range_more n m a b ts l r : register n a -> register m b -> a <= b -> list_items ts l r ->
    list_items (TIdent n :: TMinus :: TIdent m :: TComma :: ts) ((a, b) :: l) r.
(** Bit i of the mask: register i is in one of the ranges. *)
Definition list_mask (l : list (Z * Z)) (m : Z) : Prop :=
  0 <= m < 65536 /\ forall i, 0 <= i < 16 -> (Z.testbit m i = true <-> exists a b, In (a, b) l /\ a <= i <= b).

(** Status registers: cpsr or spsr, all fields (1111), or _ctl, _flg, or letters for fields.  What
    follows the four letters is [junk]. *)
Definition field_letters (l : list ascii) : Prop :=
  NoDup l /\ forall c, In c l -> In c ["f"; "s"; "x"; "c"]%char.
Definition field_value (l : list ascii) : Z :=
  let bit (c : ascii) (b : Z) := if in_dec ascii_dec c l then b else 0 in
  bit "f"%char 8 + bit "s"%char 4 + bit "x"%char 2 + bit "c"%char 1.
Definition psr_name (spsr : bool) : string := if spsr then "spsr" else "cpsr".
Inductive psr_written (spsr : bool) : string -> Z -> bool -> Prop :=
| psr_all : psr_written spsr (psr_name spsr) 15 false
| psr_ctl : psr_written spsr (psr_name spsr ++ "_ctl") 1 false
| psr_flg : psr_written spsr (psr_name spsr ++ "_flg") 8 false
| psr_letters l junk : field_letters l -> (junk = "" \/ List.length l = 4%nat)%string ->
    psr_written spsr (psr_name spsr ++ "_" ++ string_of_list_ascii l ++ junk) (field_value l)
                (negb (String.eqb junk "")).

(** The names that no expression operand starts with. *)
Definition reserved (n : string) : Prop :=
  (exists x, register n x) \/ (exists x, cop_register n x) \/ (exists x, cop_number n x) \/
  (exists s f j, psr_written s n f j).

(** Decimal numbers glued to the name of a shift. *)
Fixpoint decimal (acc : Z) (s : string) : option Z :=
  match s with
  | EmptyString => Some acc
  | String c r =>
      let n := Z.of_nat (nat_of_ascii c) in
      if (48 <=? n) && (n <=? 57) then decimal (10 * acc + (n - 48)) r else None
  end.
Definition shift_names : list (string * Z) := [("lsl", 0); ("asl", 0); ("lsr", 1); ("asr", 2); ("ror", 3); ("rrx", 4)]%string%Z.

(** What the operands say. *)
Inductive rslot := RD | RN | RM | RS.
Inductive cslot := CD | CN | CM | CP.
Inductive nslot := NImm | NOpc1 | NOpc2.
Inductive amount := ByReg (r : Z) | ByNum (e : expr).
Inductive piece :=
| PReg (k : rslot) (x : Z)
| PCop (k : cslot) (x : Z)
| PWriteback (b : bool)
| PUser (b : bool)
| PMinus (b : bool)
| PStatus (spsr : bool) (field : option Z)
| PList (m : Z)
| PShift (s : option (Z * amount))
| PNum (k : nslot) (e : expr).

Definition reg_letter (c : ascii) (k : rslot) : Prop :=
  In (c, k) [("d", RD); ("n", RN); ("m", RM); ("s", RS)]%char.
Definition cop_letter (c : ascii) (k : cslot) : Prop := In (c, k) [("D", CD); ("N", CN); ("M", CM)]%char.
Definition num_letter (c : ascii) (k : nslot) : Prop :=
  In (c, k) [("I", NImm); ("i", NImm); ("Y", NOpc1); ("Z", NOpc2)]%char.
Definition symbols : list (ascii * token) :=
  [("[", TLBrack); ("]", TRBrack); (",", TComma); ("!", TExclamation); ("{", TLBrace); ("}", TRBrace); ("#", THash);
   ("=", TAssign); ("+", TPlus)]%char.

Section Line.
  Variable isfun : string -> bool.
  Variables file section : Z.

  (** An expression that does not start with a reserved name. *)
  Definition number (ts : list token) (e : expr) (r : list token) : Prop :=
    (forall n ts', ts = TIdent n :: ts' -> ~ reserved n) /\ parse_expression isfun file section ts = Some (e, r).
  (** The amount of a shift: a register (unless [imm]), or an expression with an optional '#'. *)
  Inductive shift_by (imm : bool) : list token -> amount -> list token -> Prop :=
  | by_reg n x r : imm = false -> register n x -> shift_by imm (TIdent n :: r) (ByReg x) r
  | by_num ts e r : ~ next_is THash ts -> number ts e r -> shift_by imm ts (ByNum e) r
  | by_hash ts e r : number ts e r -> shift_by imm (THash :: ts) (ByNum e) r.
  Inductive shifted (imm : bool) : list token -> option (Z * amount) -> list token -> Prop :=
  | no_shift ts : ~ next_is TComma ts -> shifted imm ts None ts
  | shift_word n ty ts a r : In (n, ty) shift_names -> shift_by imm ts a r ->
      shifted imm (TComma :: TIdent n :: ts) (Some (ty, a)) r
  | shift_glued n ty d x r : In (n, ty) shift_names -> d <> ""%string -> decimal 0 d = Some x -> (String.length d < 19)%nat ->
      shifted imm (TComma :: TIdent (n ++ d) :: r) (Some (ty, ByNum (EInt x))) r.

  (** [lays m ts ps r]: the tokens [ts] are operands as described by [m], then the end of the line,
      then [r]; the operands are [ps].  In [m], a lower case letter with a digit stands for a register
      (1: not pc), D N M for coprocessor registers, X for a coprocessor, Y and Z for its opcodes, W for
      an optional '!', p for an optional '^', P for a status register (1: without fields), R for a
      register list, S for an optional shift (1: by a number only), z for the amount of a given shift,
      I, i and j for a number, v for an optional sign; '/' makes the symbol after it optional. *)
  Inductive lays : string -> list token -> list piece -> list token -> Prop :=
  | l_end r : lays "" (TSeparator :: r) [] r
  | l_reg c k a m n x ts ps r : reg_letter c k -> register n x -> (a = "1"%char -> x <> 15) -> lays m ts ps r ->
      lays (String c (String a m)) (TIdent n :: ts) (PReg k x :: ps) r
  | l_cop c k m n x ts ps r : cop_letter c k -> cop_register n x -> lays m ts ps r ->
      lays (String c m) (TIdent n :: ts) (PCop k x :: ps) r
  | l_cp m n x ts ps r : cop_number n x -> lays m ts ps r ->
      lays (String "X" m) (TIdent n :: ts) (PCop CP x :: ps) r
  | l_wb m ts ps r : lays m ts ps r -> lays (String "W" m) (TExclamation :: ts) (PWriteback true :: ps) r
  | l_no_wb m ts ps r : ~ next_is TExclamation ts -> lays m ts ps r -> lays (String "W" m) ts (PWriteback false :: ps) r
  | l_user m ts ps r : lays m ts ps r -> lays (String "p" m) (TCaret :: ts) (PUser true :: ps) r
  | l_no_user m ts ps r : ~ next_is TCaret ts -> lays m ts ps r -> lays (String "p" m) ts (PUser false :: ps) r
  | l_plus m ts ps r : lays m ts ps r -> lays (String "v" m) (TPlus :: ts) (PMinus false :: ps) r
  | l_minus m ts ps r : lays m ts ps r -> lays (String "v" m) (TMinus :: ts) (PMinus true :: ps) r
  | l_no_sign m ts ps r : ~ next_is TPlus ts -> ~ next_is TMinus ts -> lays m ts ps r ->
      lays (String "v" m) ts (PMinus false :: ps) r
  | l_status a m n spsr f j ts ps r : psr_written spsr n f j -> (a = "1"%char -> n = psr_name spsr) -> lays m ts ps r ->
      lays (String "P" (String a m)) (TIdent n :: ts) (PStatus spsr (if Ascii.eqb a "1" then None else Some f) :: ps) r
  | l_list m ts l x ts' ps r : list_items ts l ts' -> list_mask l x -> lays m ts' ps r ->
      lays (String "R" m) ts (PList x :: ps) r
  | l_shift a m ts s ts' ps r : shifted (Ascii.eqb a "1") ts s ts' -> lays m ts' ps r ->
      lays (String "S" (String a m)) ts (PShift s :: ps) r
  | l_amount a m ts b ts' ps r : shift_by false ts b ts' -> lays m ts' ps r ->
      lays (String "z" (String a m)) ts (PShift (Some (Z.of_nat (nat_of_ascii a), b)) :: ps) r
  | l_num c k m ts e ts' ps r : num_letter c k -> number ts e ts' -> lays m ts' ps r ->
      lays (String c m) ts (PNum k e :: ps) r
  | l_len a m ts e ts' ps r : number ts e ts' -> lays m ts' ps r ->
      lays (String "j" (String a m)) ts (PNum NImm e :: ps) r
  | l_symbol c t m ts ps r : In (c, t) symbols -> lays m ts ps r -> lays (String c m) (t :: ts) ps r
  | l_optional c t m ts ps r : In (c, t) symbols -> lays m ts ps r -> lays (String "/" (String c m)) (t :: ts) ps r
  | l_omitted c t m ts ps r : In (c, t) symbols -> ~ next_is t ts -> lays m ts ps r -> lays (String "/" (String c m)) ts ps r.

  (** * What a line asks for *)

  Variable nan : Z.
  Variable ev : expr -> value.
  (** The value of an expression: 64 bits for shifts and coprocessor opcodes, 32 bits for operands,
      where a floating point number stands for the bits of its single precision form. *)
  Definition whole (e : expr) (z : Z) : Prop := ev e = VInt z.
  Definition word_of (e : expr) (z : Z) : Prop :=
    match ev e with
    | VInt x => z = u32 x
    | VFloat f => z = u32 (get_float_bits nan (to_single f))
    | _ => False
    end.
  Definition piece_says (q : aops) (p : piece) : Prop :=
    match p with
    | PReg RD x => q_rd q = x | PReg RN x => q_rn q = x | PReg RM x => q_rm q = x | PReg RS x => q_rs q = x
    | PCop CD x => q_crd q = x | PCop CN x => q_crn q = x | PCop CM x => q_crm q = x | PCop CP x => q_cp q = x
    | PWriteback b => q_wb q = b
    | PUser b => q_user q = b
    | PMinus b => q_minus q = b
    | PStatus s f => q_spsr q = s /\ match f with Some x => q_field q = x | None => True end
    | PList m => q_list q = m
    | PShift None => q_shift q = WNone
    | PShift (Some (ty, ByReg r)) => q_shift q = WReg ty r
    | PShift (Some (ty, ByNum e)) => exists n, whole e n /\ q_shift q = WImm ty n
    | PNum NImm e => word_of e (q_imm q)
    | PNum NOpc1 e => whole e (q_opc1 q)
    | PNum NOpc2 e => whole e (q_opc2 q)
    end.
  (** The operands of a line: what is written, and nothing more. *)
  Definition is_wb (p : piece) : bool := match p with PWriteback _ => true | _ => false end.
  Definition is_user (p : piece) : bool := match p with PUser _ => true | _ => false end.
  Definition is_minus (p : piece) : bool := match p with PMinus _ => true | _ => false end.
  Definition is_shift (p : piece) : bool := match p with PShift _ => true | _ => false end.
  Definition is_opc2 (p : piece) : bool := match p with PNum NOpc2 _ => true | _ => false end.
  Definition asks (arch : arm_arch) (u : said) (ps : list piece) (q : aops) : Prop :=
    (q_cond q = w_c u /\ q_s q = w_s u /\ q_mode q = w_mode u /\ q_x q = w_x u /\ q_y q = w_y u) /\
    Forall (piece_says q) ps /\
    (existsb is_wb ps = false -> q_wb q = false) /\ (existsb is_user ps = false -> q_user q = false) /\
    (existsb is_minus ps = false -> q_minus q = false) /\ (existsb is_shift ps = false -> q_shift q = WNone) /\
    (existsb is_opc2 ps = false -> q_opc2 q = 0) /\
    q_short q = match arch with AARCH_GBA | AARCH_NDS => true | _ => false end.
  (** The immediate of the line is a whole number. *)
  Definition whole_imm (ps : list piece) : bool :=
    forallb (fun p => match p with PNum NImm e => match ev e with VInt _ => true | _ => false end | _ => true end) ps.

  (** [reads arch ts o u ps r]: the line [ts] fits the syntax of row [o] of the instruction set. *)
  Definition available (arch : arm_arch) (o : arm_opcode) : Prop := ~ (has o ARM_ARM9 = true /\ arch = AARCH_GBA).
  Definition reads (arch : arm_arch) (ts : list token) (o : arm_opcode) (u : said) (ps : list piece) (r : list token) : Prop :=
    available arch o /\ exists n ts', ts = TIdent n :: ts' /\ spells (op_name o) n u /\ lays (op_mask o) ts' ps r.
  (** The first row of the instruction set whose syntax the line fits. *)
  Definition first_reading (rows : list arm_opcode) (arch : arm_arch) (ts : list token) (o : arm_opcode) (u : said)
      (ps : list piece) (r : list token) : Prop :=
    exists pre post, rows = pre ++ o :: post /\ reads arch ts o u ps r /\
      forall o' u' ps' r', In o' pre -> ~ reads arch ts o' u' ps' r'.
End Line.
