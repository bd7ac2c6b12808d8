(** Model of the Thumb-mode instruction parser, Archs/ARM/ArmParser.cpp, from the tokens of a line to
    the halfwords that are written.

    Registers, register lists, immediates and symbols are parsed by the functions of ArmLineModel.v,
    which both modes share.  The members of [ThumbOpcodeVariables] (Archs/ARM/CThumbInstruction.h 7-20)
    have no initializers: their first values are an argument, and theorems are about all of them.  All
    rows of the table that are tried work on the same variables, so what a failing row wrote stays.
    Simplified: of a register list that fails nothing is kept. *)

Require Import ZArith Bool List String Ascii.
Require Import Verif.Ints Verif.Res Verif.ExprModel Verif.ParseModel Verif.FloatModel Verif.ArmModel Verif.ArmLineModel Verif.ThumbModel.
Import ListNotations.
Local Open Scope Z_scope.

(** [ThumbOpcodeVariables], CThumbInstruction.h 7-20, as far as the parser writes it. *)
Record tvars := mkTVars { g_rd : Z; g_rs : Z; g_rn : Z; g_ro : Z; g_imm : option expr; g_len : Z; g_list : Z }.
Inductive tslot := SD | SS | SN | SO.
(** Assignment of a register, ArmParser.cpp 110-121. *)
Definition tset (k : tslot) (x : Z) (v : tvars) : tvars :=
  match k with
  | SD => mkTVars x (g_rs v) (g_rn v) (g_ro v) (g_imm v) (g_len v) (g_list v)
  | SS => mkTVars (g_rd v) x (g_rn v) (g_ro v) (g_imm v) (g_len v) (g_list v)
  | SN => mkTVars (g_rd v) (g_rs v) x (g_ro v) (g_imm v) (g_len v) (g_list v)
  | SO => mkTVars (g_rd v) (g_rs v) (g_rn v) x (g_imm v) (g_len v) (g_list v)
  end.
(** 735-736 *)
Definition tset_num (e : expr) (n : Z) (v : tvars) : tvars :=
  mkTVars (g_rd v) (g_rs v) (g_rn v) (g_ro v) (Some e) n (g_list v).
(** 729 *)
Definition tset_list (x : Z) (v : tvars) : tvars :=
  mkTVars (g_rd v) (g_rs v) (g_rn v) (g_ro v) (g_imm v) (g_len v) x.

(** Outcome of reading operands: success with the tokens that are left, or failure. *)
Inductive tres := TGot (v : tvars) (rest : list token) | TMiss (v : tvars).

Section Line.
  (** Expression functions and the place identifiers are resolved in, as in ParseModel.v; [signed]:
      whether [char] is signed. *)
  Variable isfun : string -> bool.
  Variables file section : Z.
  Variable signed : bool.

  (** [parseRegister], 129-135: the variable is written even if the number is too large. *)
  Definition tregister (k : tslot) (max : Z) (v : tvars) (ts : list token) (next : tvars -> list token -> tres) : tres :=
    match parseRegisterTable ts armRegisters with
    | Some (n, r) => if n <=? max then next (tset k n v) r else TMiss (tset k n v)
    | None => TMiss v
    end.
  Definition code (c : ascii) : Z := Z.of_N (N_of_ascii c).
  (** A register that the mask prescribes, 723-726. *)
  Definition tforced (c : ascii) (v : tvars) (ts : list token) (next : tvars -> list token -> tres) : tres :=
    match parseRegisterTable ts armRegisters with
    | Some (n, r) => if code c =? n then next v r else TMiss v
    | None => TMiss v
    end.
  (** [parseRegisterList], 147-182, with the mask of 728. *)
  Definition tlist (a b : ascii) (v : tvars) (ts : list token) (next : tvars -> list token -> tres) : tres :=
    match parse_list 0 ts with
    | Some (m, r) => if list_accepted signed (code a) (code b) m then next (tset_list m v) r else TMiss v
    | None => TMiss v
    end.
  (** 732-736 *)
  Definition tnumber (c : ascii) (v : tvars) (ts : list token) (next : tvars -> list token -> tres) : tres :=
    match parseImmediate isfun file section ts with
    | Some (e, r) => next (tset_num e (code c) v) r
    | None => TMiss v
    end.
  (** [matchSymbol], 210-235, with [Parser::matchToken], Parser/Parser.cpp 265-276. *)
  Definition tsymbol (c : ascii) (optional : bool) (v : tvars) (ts : list token) (next : tvars -> list token -> tres) : tres :=
    match symbol_token c with
    | None => TMiss v
    | Some t => if same_type t (peek ts) then next v (tl ts) else if optional then next v ts else TMiss v
    end.

  (** [parseThumbParameters], 691-748: the loop over the mask; [optional]: a slash was just read. *)
  Fixpoint run_mask (optional : bool) (m : string) (v : tvars) (ts : list token) : tres :=
    match m with
    | EmptyString =>
        if optional then TMiss v
        else match ts with TSeparator :: r => TGot v r | _ => TMiss v end
    | String c r =>
        if Ascii.eqb c "/" && negb optional then run_mask true r v ts
        else if Ascii.eqb c "d" then tregister SD 7 v ts (run_mask false r)
        else if Ascii.eqb c "s" then tregister SS 7 v ts (run_mask false r)
        else if Ascii.eqb c "n" then tregister SN 7 v ts (run_mask false r)
        else if Ascii.eqb c "o" then tregister SO 7 v ts (run_mask false r)
        else if Ascii.eqb c "D" then tregister SD 15 v ts (run_mask false r)
        else if Ascii.eqb c "S" then tregister SS 15 v ts (run_mask false r)
        else if Ascii.eqb c "r" then
          match r with String a r' => tforced a v ts (run_mask false r') | EmptyString => TMiss v end
        else if Ascii.eqb c "R" then
          match r with String a (String b r') => tlist a b v ts (run_mask false r') | _ => TMiss v end
        else if Ascii.eqb c "I" || Ascii.eqb c "i" then
          match r with String a r' => tnumber a v ts (run_mask false r') | EmptyString => TMiss v end
        else tsymbol c optional v ts (run_mask false r)
    end%char.

  (** [parseThumbOpcode], 750-786: the row, its variables and the tokens left, or an error. *)
  Fixpoint thumb_rows (arch : arm_arch) (name : string) (rows : list thumb_opcode) (v : tvars) (ts : list token)
    : option (thumb_opcode * tvars * list token) :=
    match rows with
    | [] => None
    | o :: r =>
        if thas o THUMB_ARM9 && is_gba arch then thumb_rows arch name r v ts
        else if String.eqb name (t_name o) then
          match run_mask false (t_mask o) v ts with
          | TGot v' rest => Some (o, v', rest)
          | TMiss v' => thumb_rows arch name r v' ts
          end
        else thumb_rows arch name r v ts
    end.
  Definition parseThumbOpcode (arch : arm_arch) (v : tvars) (ts : list token) : option (thumb_opcode * tvars * list token) :=
    match ts with
    | TIdent name :: r => thumb_rows arch name ThumbOpcodes v r
    | _ => None
    end.

  (** The constructor, CThumbInstruction.cpp 9-14. *)
  Definition thumb_input (o : thumb_opcode) (v : tvars) : thumb_in :=
    mkThumbIn o (g_rd v) (g_rs v) (g_rn v) (g_ro v) (g_len v) (g_list v).
  (** The whole way of one line, with the evaluation of CThumbInstruction.cpp 54-75: tokens to halfwords. *)
  Definition thumb_line (arch : arm_arch) (nan : Z) (ev : expr -> value) (v : tvars) (ts : list token) (ramPos pool : Z)
    : res (list Z) :=
    match parseThumbOpcode arch v ts with
    | None => RErr
    | Some (o, v, _) => thumb_assemble (thumb_input o v) ramPos (as_imm nan (option_map ev (g_imm v))) pool
    end.
End Line.
