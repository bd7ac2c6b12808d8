(** What a SuperH halfword means, after the instruction list of the SH-2 manual, and how it is written.

    The decoder goes from the halfword to the instruction and knows nothing of the assembler's table. *)

Require Import ZArith Bool List String Ascii.
Require Import Verif.Ints Verif.ShModel.
Import ListNotations.
Local Open Scope string_scope.
Local Open Scope list_scope.
Local Open Scope Z_scope.

(** ** Instructions *)

Inductive operand :=
| Rn (n : Z)                 (* Rn *)
| Ind (n : Z)                (* @Rn *)
| Jump (n : Z)               (* the register of a jump: @Rn for jmp and jsr, Rn for braf and bsrf *)
| Dec (n : Z)                (* @-Rn *)
| Inc (n : Z)                (* @Rn+ *)
| Disp (scale d n : Z)       (* @(disp,Rn), the field d *)
| Idx (n : Z)                (* @(R0,Rn) *)
| Gbr (scale d : Z)          (* @(disp,GBR) *)
| GbrIdx                     (* @(R0,GBR) *)
| Pcr (scale d : Z)          (* @(disp,PC) *)
| Near (d : Z)               (* a branch by d halfwords *)
| Imm (d : Z)                (* #imm, the field *)
| Vector (d : Z)             (* #imm of trapa *)
| Sys (s : string).          (* a register named by the instruction *)

Definition instr : Type := string * list operand.

Definition size (k : Z) : string := if k =? 0 then ".b" else if k =? 1 then ".w" else ".l".
Definition bytes (k : Z) : Z := if k =? 0 then 1 else if k =? 1 then 2 else 4.
Definition mov (k : Z) : string := ("mov" ++ size k)%string.

Fixpoint pick {A} (k : Z) (l : list (Z * A)) : option A :=
  match l with
  | [] => None
  | (n, a) :: l => if k =? n then Some a else pick k l
  end.

(** The halfwords with a fixed low byte and a register in bits 8-11: manual, formats n and m. *)
Definition low_byte_0 (n : Z) : list (Z * instr) := [
  (0x02, ("stc", [Sys "sr"; Rn n])); (0x12, ("stc", [Sys "gbr"; Rn n])); (0x22, ("stc", [Sys "vbr"; Rn n]));
  (0x03, ("bsrf", [Jump n])); (0x23, ("braf", [Jump n])); (0x29, ("movt", [Rn n]));
  (0x0A, ("sts", [Sys "mach"; Rn n])); (0x1A, ("sts", [Sys "macl"; Rn n])); (0x2A, ("sts", [Sys "pr"; Rn n]))].
Definition fixed_0 : list (Z * instr) := [
  (0x08, ("clrt", [])); (0x18, ("sett", [])); (0x28, ("clrmac", [])); (0x09, ("nop", [])); (0x19, ("div0u", []));
  (0x0B, ("rts", [])); (0x1B, ("sleep", [])); (0x2B, ("rte", []))].
Definition low_byte_4 (n : Z) : list (Z * instr) := [
  (0x00, ("shll", [Rn n])); (0x10, ("dt", [Rn n])); (0x20, ("shal", [Rn n]));
  (0x01, ("shlr", [Rn n])); (0x11, ("cmp/pz", [Rn n])); (0x21, ("shar", [Rn n]));
  (0x02, ("sts.l", [Sys "mach"; Dec n])); (0x12, ("sts.l", [Sys "macl"; Dec n])); (0x22, ("sts.l", [Sys "pr"; Dec n]));
  (0x03, ("stc.l", [Sys "sr"; Dec n])); (0x13, ("stc.l", [Sys "gbr"; Dec n])); (0x23, ("stc.l", [Sys "vbr"; Dec n]));
  (0x04, ("rotl", [Rn n])); (0x24, ("rotcl", [Rn n])); (0x05, ("rotr", [Rn n])); (0x15, ("cmp/pl", [Rn n])); (0x25, ("rotcr", [Rn n]));
  (0x06, ("lds.l", [Inc n; Sys "mach"])); (0x16, ("lds.l", [Inc n; Sys "macl"])); (0x26, ("lds.l", [Inc n; Sys "pr"]));
  (0x07, ("ldc.l", [Inc n; Sys "sr"])); (0x17, ("ldc.l", [Inc n; Sys "gbr"])); (0x27, ("ldc.l", [Inc n; Sys "vbr"]));
  (0x08, ("shll2", [Rn n])); (0x18, ("shll8", [Rn n])); (0x28, ("shll16", [Rn n]));
  (0x09, ("shlr2", [Rn n])); (0x19, ("shlr8", [Rn n])); (0x29, ("shlr16", [Rn n]));
  (0x0A, ("lds", [Rn n; Sys "mach"])); (0x1A, ("lds", [Rn n; Sys "macl"])); (0x2A, ("lds", [Rn n; Sys "pr"]));
  (0x0B, ("jsr", [Jump n])); (0x1B, ("tas.b", [Ind n])); (0x2B, ("jmp", [Jump n]));
  (0x0E, ("ldc", [Rn n; Sys "sr"])); (0x1E, ("ldc", [Rn n; Sys "gbr"])); (0x2E, ("ldc", [Rn n; Sys "vbr"]))].
(** Two registers: the low digit says which instruction. *)
Definition arithmetic_2 : list (Z * string) := [
  (0x7, "div0s"); (0x8, "tst"); (0x9, "and"); (0xA, "xor"); (0xB, "or"); (0xC, "cmp/str"); (0xD, "xtrct"); (0xE, "mulu.w"); (0xF, "muls.w")].
Definition arithmetic_3 : list (Z * string) := [
  (0x0, "cmp/eq"); (0x2, "cmp/hs"); (0x3, "cmp/ge"); (0x4, "div1"); (0x5, "dmulu.l"); (0x6, "cmp/hi"); (0x7, "cmp/gt");
  (0x8, "sub"); (0xA, "subc"); (0xB, "subv"); (0xC, "add"); (0xD, "dmuls.l"); (0xE, "addc"); (0xF, "addv")].
Definition arithmetic_6 : list (Z * string) := [
  (0x3, "mov"); (0x7, "not"); (0x8, "swap.b"); (0x9, "swap.w"); (0xA, "negc"); (0xB, "neg"); (0xC, "extu.b"); (0xD, "extu.w");
  (0xE, "exts.b"); (0xF, "exts.w")].
Definition two (l : list (Z * string)) (n m d : Z) : option instr :=
  match pick d l with Some s => Some (s, [Rn m; Rn n]) | None => None end.

Definition sh_decode (w : Z) : option instr :=
  let n := bits w 8 4 in
  let m := bits w 4 4 in
  let d := bits w 0 4 in
  let b := bits w 0 8 in
  match bits w 12 4 with
  | 0x0 =>
    if (4 <=? d) && (d <=? 6) then Some (mov (d - 4), [Rn m; Idx n])
    else if d =? 7 then Some ("mul.l", [Rn m; Rn n])
    else if (0xC <=? d) && (d <=? 0xE) then Some (mov (d - 0xC), [Idx m; Rn n])
    else if d =? 0xF then Some ("mac.l", [Inc m; Inc n])
    else match pick b (low_byte_0 n) with
         | Some x => Some x
         | None => if n =? 0 then pick b fixed_0 else None
         end
  | 0x1 => Some ("mov.l", [Rn m; Disp 4 d n])
  | 0x2 =>
    if d <=? 2 then Some (mov d, [Rn m; Ind n])
    else if (4 <=? d) && (d <=? 6) then Some (mov (d - 4), [Rn m; Dec n])
    else two arithmetic_2 n m d
  | 0x3 => two arithmetic_3 n m d
  | 0x4 => if d =? 0xF then Some ("mac.w", [Inc m; Inc n]) else pick b (low_byte_4 n)
  | 0x5 => Some ("mov.l", [Disp 4 d m; Rn n])
  | 0x6 =>
    if d <=? 2 then Some (mov d, [Ind m; Rn n])
    else if (4 <=? d) && (d <=? 6) then Some (mov (d - 4), [Inc m; Rn n])
    else two arithmetic_6 n m d
  | 0x7 => Some ("add", [Imm b; Rn n])
  | 0x8 =>
    pick n [(0x0, ("mov.b", [Sys "r0"; Disp 1 d m])); (0x1, ("mov.w", [Sys "r0"; Disp 2 d m]));
            (0x4, ("mov.b", [Disp 1 d m; Sys "r0"])); (0x5, ("mov.w", [Disp 2 d m; Sys "r0"]));
            (0x8, ("cmp/eq", [Imm b; Sys "r0"])); (0x9, ("bt", [Near (s8 b)])); (0xB, ("bf", [Near (s8 b)]));
            (0xD, ("bt/s", [Near (s8 b)])); (0xF, ("bf/s", [Near (s8 b)]))]
  | 0x9 => Some ("mov.w", [Pcr 2 b; Rn n])
  | 0xA => let x := bits w 0 12 in Some ("bra", [Near (if x <? 2048 then x else x - 4096)])
  | 0xB => let x := bits w 0 12 in Some ("bsr", [Near (if x <? 2048 then x else x - 4096)])
  | 0xC =>
    pick n [(0x0, ("mov.b", [Sys "r0"; Gbr 1 b])); (0x1, ("mov.w", [Sys "r0"; Gbr 2 b])); (0x2, ("mov.l", [Sys "r0"; Gbr 4 b]));
            (0x3, ("trapa", [Vector b]));
            (0x4, ("mov.b", [Gbr 1 b; Sys "r0"])); (0x5, ("mov.w", [Gbr 2 b; Sys "r0"])); (0x6, ("mov.l", [Gbr 4 b; Sys "r0"]));
            (0x7, ("mova", [Pcr 4 b; Sys "r0"]));
            (0x8, ("tst", [Imm b; Sys "r0"])); (0x9, ("and", [Imm b; Sys "r0"])); (0xA, ("xor", [Imm b; Sys "r0"]));
            (0xB, ("or", [Imm b; Sys "r0"]));
            (0xC, ("tst.b", [Imm b; GbrIdx])); (0xD, ("and.b", [Imm b; GbrIdx])); (0xE, ("xor.b", [Imm b; GbrIdx]));
            (0xF, ("or.b", [Imm b; GbrIdx]))]
  | 0xD => Some ("mov.l", [Pcr 4 b; Rn n])
  | 0xE => Some ("mov", [Imm b; Rn n])
  | _ => None
  end.

(** ** Addresses *)

(** The address a pc-relative displacement or a branch refers to: the pc is four ahead, and rounded down
    to a multiple of four when the data are words. *)
Definition pc_base (scale pc : Z) : Z := if scale =? 4 then (pc + 4) / 4 * 4 else pc + 4.
Definition sh_target (pc w : Z) : option Z :=
  match sh_decode w with
  | Some (_, Near d :: _) => Some (u32 (pc + 4 + 2 * d))
  | Some (_, Pcr scale d :: _) => Some (u32 (pc_base scale pc + scale * d))
  | _ => None
  end.

(** ** The text *)

(** What a number stands for: a field of [width] bits that holds the number divided by [scale]; an
    address in reach of a displacement, or its distance from the instruction; the target of a branch. *)
Inductive numeral :=
| Field (width scale d : Z)
| Target (scale d : Z)
| Distance (scale d : Z)
| Branch (d : Z).
Definition means (pc : Z) (x : numeral) (z : Z) : Prop :=
  match x with
  | Field width scale d => s32 z mod scale = 0 /\ d = (s32 z / scale) mod 2 ^ width
  | Target scale d => u32 z = u32 (pc_base scale pc + scale * d)
  | Distance scale d => u32 (pc + z) = u32 (pc_base scale pc + scale * d)
  | Branch d => u32 z = u32 (pc + 4 + 2 * d)
  end.

Inductive sym :=
| Register (n : Z)      (* rN; the assembler also takes @rN here *)
| AtRegister (n : Z)    (* @rN *)
| At                    (* @ *)
| Word (s : string)
| Char (c : ascii)
| Number (x : numeral).

(** The ways to write an operand. *)
Definition near_at (l : list sym) : list sym := At :: Char "(" :: l ++ [Char ")"%char].
Definition spellings (o : operand) : list (list sym) :=
  match o with
  | Rn n => [[Register n]]
  | Ind n => [[AtRegister n]]
  | Jump n => [[AtRegister n]; [Register n]]
  | Dec n => [[At; Char "-"; Register n]]
  | Inc n => [[AtRegister n; Char "+"]]
  | Disp scale d n => [near_at [Number (Field 4 scale d); Char ","; Register n]]
  | Idx n => [near_at [Word "r0"; Char ","; Register n]]
  | Gbr scale d => [near_at [Number (Field 8 scale d); Char ","; Word "gbr"]]
  | GbrIdx => [near_at [Word "r0"; Char ","; Word "gbr"]]
  | Pcr scale d => [[Number (Target scale d)]; near_at [Number (Distance scale d); Char ","; Word "pc"]]
  | Near d => [[Number (Branch d)]]
  | Imm d => [[Char "#"; Number (Field 8 1 d)]; [Number (Field 8 1 d)]]
  | Vector d => [[Char "#"; Number (Field 8 1 d)]]
  | Sys s => [[Word s]]
  end.
Fixpoint spelled (os : list operand) : list (list sym) :=
  match os with
  | [] => [[]]
  | [o] => spellings o
  | o :: os => flat_map (fun a => map (fun b => a ++ Char "," :: b) (spelled os)) (spellings o)
  end.

Definition digit (n : nat) : string := String (ascii_of_nat (48 + n)) EmptyString.
Definition reg_name (n : Z) : string :=
  let k := Z.to_nat n in
  ("r" ++ (if Nat.ltb k 10 then digit k else digit 1 ++ digit (k - 10)))%string.
Definition value_of (p : shp) : option Z := match p with SName _ v => v | SExpr _ v => v | SSym _ => None end.
Definition stands_for (pc : Z) (x : sym) (p : shp) : Prop :=
  match x, p with
  | Register n, SName s _ => s = reg_name n \/ s = ("@" ++ reg_name n)%string
  | AtRegister n, SName s _ => s = ("@" ++ reg_name n)%string
  | At, SName (String c _) _ => c = "@"%char
  | Word s, SName t _ => s = t
  | Char c, SSym d => c = d
  | Number x, _ => exists z, value_of p = Some z /\ means pc x z
  | _, _ => False
  end.

(** The mnemonic, which may be written in two parts. *)
Fixpoint cut (s : string) : string * option string :=
  match s with
  | EmptyString => (EmptyString, None)
  | String c r => if Ascii.eqb c "/" then (EmptyString, Some r) else let (a, b) := cut r in (String c a, b)
  end.
Definition writes (pc : Z) (x : instr) (name : string) (ps : list shp) : Prop :=
  exists rest syms, In syms (spelled (snd x)) /\ Forall2 (stands_for pc) syms rest /\
  match cut (fst x) with
  | (a, None) => name = a /\ ps = rest
  | (a, Some b) => name = a /\ exists v, ps = SSym "/" :: SName b v :: rest
  end.

(** The address that the operands ask for: an address, or [@(distance,pc)]. *)
Inductive addressed (pc : Z) : list shp -> Z -> Prop :=
| direct : forall p r z, value_of p = Some z -> (forall q, r <> SSym "(" :: q) -> addressed pc (p :: r) (u32 z)
| displaced : forall s v p r z, value_of p = Some z -> addressed pc (SName s v :: SSym "(" :: p :: r) (u32 (pc + z))
| suffix : forall b v r a, addressed pc r a -> addressed pc (SSym "/" :: SName b v :: r) a.

(** ** The usual text of an instruction *)

(** Numbers that an operand can represent.  Addresses are below 2^31. *)
Definition representable (pc : Z) (x : numeral) (z : Z) : Prop :=
  match x with
  | Field width scale d => z mod scale = 0 /\ - 2 ^ (width - 1) <= z / scale < 2 ^ width /\ d = (z / scale) mod 2 ^ width
  | Target scale d => z = pc_base scale pc + scale * d /\ z < 2 ^ 31
  | Distance scale d => pc + z = pc_base scale pc + scale * d /\ pc + z < 2 ^ 31
  | Branch d => z = pc + 4 + 2 * d /\ 0 <= z < 2 ^ 31
  end.
(** A number is an expression or a name that is no register. *)
Definition system_registers : list string := ["sr"; "gbr"; "vbr"; "mach"; "macl"; "pr"; "pc"].
Definition number_piece (p : shp) : Prop :=
  match p with
  | SName s _ => ~ In s system_registers /\ forall n, 0 <= n < 16 -> s <> reg_name n /\ s <> ("@" ++ reg_name n)%string
  | SExpr reg _ => reg = false
  | SSym _ => False
  end.
Definition usual (pc : Z) (x : sym) (p : shp) : Prop :=
  match x, p with
  | Register n, SName s _ => s = reg_name n
  | AtRegister n, SName s _ => s = ("@" ++ reg_name n)%string
  | At, SName s _ => s = "@"
  | Word s, SName t _ => s = t
  | Char c, SSym d => c = d
  | Number x, p => number_piece p /\ exists z, value_of p = Some z /\ representable pc x z
  | _, _ => False
  end.
Definition usual_text (pc : Z) (x : instr) (name : string) (ps : list shp) : Prop :=
  exists rest syms, In syms (spelled (snd x)) /\ Forall2 (usual pc) syms rest /\
  match cut (fst x) with
  | (a, None) => name = a /\ ps = rest
  | (a, Some b) => name = a /\ exists v, ps = SSym "/" :: SName b v :: rest
  end.

(** The branches and pc-relative loads. *)
Inductive relative : instr -> Prop :=
| near_8 : forall n d, In n ["bt"; "bf"; "bt/s"; "bf/s"] -> -128 <= d < 128 -> relative (n, [Near d])
| near_12 : forall n d, In n ["bra"; "bsr"] -> -2048 <= d < 2048 -> relative (n, [Near d])
| load_word : forall d r, 0 <= d < 256 -> 0 <= r < 16 -> relative ("mov.w", [Pcr 2 d; Rn r])
| load_long : forall d r, 0 <= d < 256 -> 0 <= r < 16 -> relative ("mov.l", [Pcr 4 d; Rn r])
| load_address : forall d, 0 <= d < 256 -> relative ("mova", [Pcr 4 d; Sys "r0"]).

(** The branch furthest back. *)
Definition furthest_back (x : instr) : bool :=
  match snd x with
  | [Near d] => if String.eqb (fst x) "bra" || String.eqb (fst x) "bsr" then d =? -2048 else d =? -128
  | _ => false
  end.

(** ** Immediates *)

(** The number that an operand of the instruction stands for when it is executed: the immediates of mov,
    add and cmp/eq are sign extended, all others and the displacements are not. *)
Definition sign_extends (name : string) : bool := existsb (String.eqb name) ["mov"; "add"; "cmp/eq"].
Definition operand_value (name : string) (o : operand) : option Z :=
  match o with
  | Imm d => Some (if sign_extends name then s8 d else d)
  | Vector d => Some d
  | Disp scale d _ => Some (scale * d)
  | Gbr scale d => Some (scale * d)
  | _ => None
  end.
(** The numbers that the operand can stand for. *)
Definition operand_range (name : string) (o : operand) : Z * Z :=
  match o with
  | Imm _ => if sign_extends name then (-128, 127) else (0, 255)
  | Vector _ => (0, 255)
  | Disp scale _ _ => (0, 15 * scale)
  | Gbr scale _ => (0, 255 * scale)
  | _ => (0, 0)
  end.
Definition the_operand (x : instr) : option operand :=
  find (fun o => match operand_value (fst x) o with Some _ => true | None => false end) (snd x).
(** Written with a number of its range, the instruction stands for this number. *)
Definition stands_for_value (x : instr) (y : sym) (p : shp) : Prop :=
  match y with
  | Number (Field _ _ _) => exists z o, value_of p = Some z /\ the_operand x = Some o /\
      (fst (operand_range (fst x) o) <= s32 z <= snd (operand_range (fst x) o) -> operand_value (fst x) o = Some (s32 z))
  | _ => True
  end.
Definition writes_value (x : instr) (ps : list shp) : Prop :=
  exists syms before rest, ps = before ++ rest /\ In syms (spelled (snd x)) /\ Forall2 (stands_for_value x) syms rest.
