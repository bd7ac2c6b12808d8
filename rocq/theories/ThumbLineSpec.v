(** Source lines of Thumb instructions, stated on their own: how operands are laid out and what the line
    asks for.  Registers, lists and numbers are written as in ARM mode (ArmLineSpec.v); the instruction
    that a form denotes is in ThumbSpec.v. *)

Require Import ZArith Bool List String Ascii.
Require Import Verif.Ints Verif.ExprModel Verif.ParseModel Verif.FloatModel Verif.ArmModel Verif.ArmLineSpec Verif.ThumbModel Verif.ThumbSpec.
Import ListNotations.
Local Open Scope Z_scope.

(** What the operands say: registers in four places, a register list, a number with its size in the instruction. *)
Inductive tplace := PD | PS | PN | PO.
Inductive tpiece :=
| QReg (k : tplace) (x : Z)
| QList (x : Z)
| QNum (len : Z) (e : expr).

Definition low_letter (c : ascii) (k : tplace) : Prop := In (c, k) [("d", PD); ("s", PS); ("n", PN); ("o", PO)]%char.
Definition any_letter (c : ascii) (k : tplace) : Prop := In (c, k) [("D", PD); ("S", PS)]%char.
Definition number_of_char (c : ascii) : Z := Z.of_nat (nat_of_ascii c).
(** Two characters name the registers that may be in a list; bit i of them stands for register i. *)
Definition may_list (a b : ascii) (x : Z) : Prop :=
  forall i, 0 <= i < 16 -> Z.testbit x i = true -> Z.testbit (number_of_char (if i <? 8 then a else b)) (i mod 8) = true.

Section Line.
  Variable isfun : string -> bool.
  Variables file section : Z.
  (** Whether characters are signed numbers; then every register list is let through. *)
  Variable signed : bool.

  (** [tlays m ts ps r]: the tokens [ts] are operands as described by [m], then the end of the line,
      then [r]; the operands are [ps].  In [m], a lower case letter stands for r0 to r7, D and S for any
      register, r for the register given by the next character, R for a register list, I and i for a
      number; '/' makes the symbol after it optional. *)
  Inductive tlays : string -> list token -> list tpiece -> list token -> Prop :=
  | t_end r : tlays "" (TSeparator :: r) [] r
  | t_low c k m n x ts ps r : low_letter c k -> register n x -> x <= 7 -> tlays m ts ps r ->
      tlays (String c m) (TIdent n :: ts) (QReg k x :: ps) r
  | t_any c k m n x ts ps r : any_letter c k -> register n x -> tlays m ts ps r ->
      tlays (String c m) (TIdent n :: ts) (QReg k x :: ps) r
  | t_given a m n ts ps r : register n (number_of_char a) -> tlays m ts ps r ->
      tlays (String "r" (String a m)) (TIdent n :: ts) ps r
  | t_list a b m ts l x ts' ps r : ArmLineSpec.list_items ts l ts' -> list_mask l x -> signed = true \/ may_list a b x -> tlays m ts' ps r ->
      tlays (String "R" (String a (String b m))) ts (QList x :: ps) r
  | t_num c a m ts e ts' ps r : In c ["I"; "i"]%char -> number isfun file section ts e ts' -> tlays m ts' ps r ->
      tlays (String c (String a m)) ts (QNum (number_of_char a) e :: ps) r
  | t_symbol c t m ts ps r : In (c, t) symbols -> tlays m ts ps r -> tlays (String c m) (t :: ts) ps r
  | t_optional c t m ts ps r : In (c, t) symbols -> tlays m ts ps r -> tlays (String "/" (String c m)) (t :: ts) ps r
  | t_omitted c t m ts ps r : In (c, t) symbols -> ~ next_is t ts -> tlays m ts ps r -> tlays (String "/" (String c m)) ts ps r.

  (** [treads arch ts o ps r]: the line fits the syntax of row [o]. *)
  Definition tavailable (arch : arm_arch) (o : thumb_opcode) : Prop := ~ (thas o THUMB_ARM9 = true /\ arch = AARCH_GBA).
  Definition treads (arch : arm_arch) (ts : list token) (o : thumb_opcode) (ps : list tpiece) (r : list token) : Prop :=
    tavailable arch o /\ exists ts', ts = TIdent (t_name o) :: ts' /\ tlays (t_mask o) ts' ps r.
  (** The first row whose syntax the line fits. *)
  Definition tfirst (arch : arm_arch) (ts : list token) (o : thumb_opcode) (ps : list tpiece) (r : list token) : Prop :=
    exists pre post, ThumbOpcodes = pre ++ o :: post /\ treads arch ts o ps r /\
      forall o' ps' r', In o' pre -> ~ treads arch ts o' ps' r'.
End Line.

(** * What a line asks for *)

Definition place_eqb (a b : tplace) : bool :=
  match a, b with PD, PD | PS, PS | PN, PN | PO, PO => true | _, _ => false end.
(** The register, list or number that is written; what is not written is not used by the instruction. *)
Fixpoint written (k : tplace) (ps : list tpiece) : option Z :=
  match ps with
  | [] => None
  | p :: r =>
      match written k r with
      | Some x => Some x
      | None => match p with QReg j x => if place_eqb k j then Some x else None | _ => None end
      end
  end.
Fixpoint written_list (ps : list tpiece) : option Z :=
  match ps with
  | [] => None
  | p :: r => match written_list r with Some x => Some x | None => match p with QList x => Some x | _ => None end end
  end.
Fixpoint written_num (ps : list tpiece) : option (Z * expr) :=
  match ps with
  | [] => None
  | p :: r => match written_num r with Some x => Some x | None => match p with QNum n e => Some (n, e) | _ => None end end
  end.
Definition or0 (x : option Z) : Z := match x with Some z => z | None => 0 end.
Definition toperands_of (ps : list tpiece) : toperands :=
  mkTOp (or0 (written PD ps)) (or0 (written PS ps)) (or0 (written PN ps)) (or0 (written PO ps)) (or0 (written_list ps)).

Section Asks.
  Variable ev : expr -> value.
  (** The number of the line; [None] if the form has one that is not an integer. *)
  Definition line_value (f : tform) (ps : list tpiece) : option Z :=
    if has_number f then
      match written_num ps with
      | Some (_, e) => match ev e with VInt z => Some z | _ => None end
      | None => None
      end
    else Some 0.
  (** A literal may also be a floating point number. *)
  Definition is_literal (ps : list tpiece) : Prop :=
    exists n e, written_num ps = Some (n, e) /\ match ev e with VInt _ | VFloat _ => True | _ => False end.

  (** The halfwords [ws] are what the line asks for at the address [a]; [pool]: where its literal is. *)
  Definition tmeans (f : tform) (ps : list tpiece) (a pool : Z) (ws : list Z) : Prop :=
    if is_branch f then
      exists z, line_value f ps = Some z /\ thumb_target a ws = Some (u32 z) /\ thumb_kind ws = branch_kind f
    else
      exists w x, ws = [w] /\ 0 <= w < 65536 /\ thumb_decode w = Some x /\
        match f with
        | FLoadPool => is_literal ps /\ thumb_meaning f (toperands_of ps) pool a = Some x
        | _ => exists z, line_value f ps = Some z /\ thumb_meaning f (toperands_of ps) z a = Some x
        end.
  (** There is such an instruction. *)
  Definition tfits (f : tform) (ps : list tpiece) (a pool : Z) : Prop :=
    if is_branch f then exists z, line_value f ps = Some z /\ thumb_branch f z a = true
    else
      exists x, match f with
                | FLoadPool => is_literal ps /\ thumb_meaning f (toperands_of ps) pool a = Some x
                | _ => exists z, line_value f ps = Some z /\ thumb_meaning f (toperands_of ps) z a = Some x
                end.
  (** The lines for which the property is true: numbers of 32 bits, no [blx] to the one target that is
      out of reach but accepted, register lists of the instruction, not [ldr rd,\[pc\]]. *)
  Definition tsane (f : tform) (ps : list tpiece) (a : Z) : Prop :=
    (is_branch f = false -> f <> FLoadPool -> forall z, line_value f ps = Some z -> is_int32 z) /\
    (f = FLongX -> forall z, line_value f ps = Some z -> s32 (z - a - 4) <> 0x3FFFFE) /\
    (is_list f = true -> exists x, thumb_meaning f (toperands_of ps) 0 a = Some x) /\
    f <> FLoadPc0.
End Asks.
