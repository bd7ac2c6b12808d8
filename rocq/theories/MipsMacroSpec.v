(** What the MIPS macros are meant to do, on the machine of MipsCpu. *)

Require Import ZArith Bool List String Ascii.
Require Import Verif.Ints Verif.MipsTable Verif.MipsModel Verif.MipsSpec Verif.MipsCpu.
Import ListNotations.
Local Open Scope string_scope.
Local Open Scope list_scope.
Local Open Scope Z_scope.

(** ** Loads and stores of an address *)

(** A load or store: the code of the instruction, whether it stores, whether it transfers a register of
    a coprocessor (written like one of the floating-point unit). *)
Record transfer := mkTransfer { t_code : Z; t_store : bool; t_cop : bool }.
Definition load (code : Z) : transfer := mkTransfer code false false.
Definition store (code : Z) : transfer := mkTransfer code true false.
Definition load_cop (code : Z) : transfer := mkTransfer code false true.
Definition store_cop (code : Z) : transfer := mkTransfer code true true.
Definition transfers : list (string * transfer) :=
  [("lb", load 0x20); ("lh", load 0x21); ("lw", load 0x23); ("lbu", load 0x24); ("lhu", load 0x25); ("lwu", load 0x27);
   ("ll", load 0x30); ("lld", load 0x34); ("ld", load 0x37);
   ("sb", store 0x28); ("sh", store 0x29); ("sw", store 0x2B); ("sc", store 0x38); ("scd", store 0x3C); ("sd", store 0x3F);
   ("lwc1", load_cop 0x31); ("l.s", load_cop 0x31); ("lwc2", load_cop 0x32); ("ldc1", load_cop 0x35); ("l.d", load_cop 0x35);
   ("ldc2", load_cop 0x36);
   ("swc1", store_cop 0x39); ("s.s", store_cop 0x39); ("swc2", store_cop 0x3A); ("sdc1", store_cop 0x3D); ("s.d", store_cop 0x3D);
   ("sdc2", store_cop 0x3E)].
Definition transferred (t : transfer) (p : piece) : option Z := register (if t_cop t then Fpr else Gpr) p.
(** The register that may be used for the upper half of the address: the one that is loaded, else the
    assembler temporary. *)
Definition scratch (t : transfer) (n : Z) : Z := if t_cop t || t_store t then 1 else n.
(** What an aligned load of up to 32 bits gives. *)
Definition loaded (code : Z) (c : cpu) (a : Z) : option Z :=
  match code with
  | 0x20 => Some (s8 (peek c a))
  | 0x24 => Some (peek c a)
  | 0x21 => if a mod 2 =? 0 then Some (s16 (peek16 c a)) else None
  | 0x25 => if a mod 2 =? 0 then Some (peek16 c a) else None
  | 0x23 => if a mod 4 =? 0 then Some (peek32 c a) else None
  | _ => None
  end.
(** The machine after an aligned store of the value [v]. *)
Definition stored (code : Z) (c : cpu) (a v : Z) : option cpu :=
  match code with
  | 0x28 => Some (poke c a v)
  | 0x29 => if a mod 2 =? 0 then Some (poke16 c a v) else None
  | 0x2B => if a mod 4 =? 0 then Some (poke32 c a v) else None
  | _ => None
  end.

(** ** Comparisons *)

Inductive relation := REq | RNe | RLt | RLe | RGt | RGe.
Definition holds_of (k : relation) (a b : Z) : bool :=
  match k with
  | REq => a =? b | RNe => negb (a =? b)
  | RLt => a <? b | RLe => a <=? b | RGt => b <? a | RGe => b <=? a
  end.
(** Registers hold 32 bits, taken as signed or unsigned numbers. *)
Definition compared (k : relation) (signed : bool) (a b : Z) : bool :=
  if signed then holds_of k (s32 a) (s32 b) else holds_of k (u32 a) (u32 b).
Definition comparisons : list (string * (relation * bool)) :=
  [("eq", (REq, true)); ("ne", (RNe, true)); ("lt", (RLt, true)); ("le", (RLe, true)); ("gt", (RGt, true)); ("ge", (RGe, true));
   ("ltu", (RLt, false)); ("leu", (RLe, false)); ("gtu", (RGt, false)); ("geu", (RGe, false))].
(** An operand: a register or a number. *)
Definition operand (c : cpu) (p : piece) : option Z :=
  match register Gpr p with Some n => Some (reg c n) | None => integer p end.
(** The names [s] + comparison, and [b] + comparison + [l] when the delay slot is annulled. *)
Definition set_name (x : string * (relation * bool)) : string := ("s" ++ fst x)%string.
Definition branch_name (likely : bool) (x : string * (relation * bool)) : string :=
  ("b" ++ fst x ++ (if likely then "l" else ""))%string.

(** When the macro can compare without loading the number first. *)
Definition in_place (k : relation) (z : Z) : Prop :=
  match k with REq | RNe => 0 <= z < 65536 | RLt | RGe => -32768 <= z < 32768 | RGt | RLe => z = 0 end.
(** The last word of the line is a branch that is taken under the condition, to the address that was
    given unless a [nop] had to be put in front of it. *)
Definition branches (ws : list Z) (pc : Z) (c : cpu) (taken likely : bool) (z : Z) : Prop :=
  exists pre w c', ws = pre ++ [w] /\ run pre c = Some c' /\ branch_if w c' = Some (taken, likely) /\
    (forall r, r <> 1 -> reg c' r = reg c r) /\ ram c' = ram c /\
    (last pre 1 <> 0 -> z mod 4 = 0 -> s32 (z - (pc + 4 * Z.of_nat (List.length pre)) - 4) <> 0x20000 ->
     branch_target (pc + 4 * Z.of_nat (List.length pre)) w = Some (u32 z)).

(** ** Rotation *)

(** Register [n] gets the value [v]; the assembler temporary may change, everything else stays. *)
Definition sets_at (c : cpu) (n v : Z) (c' : cpu) : Prop :=
  reg c' n = v /\ (forall r, r <> n -> r <> 1 -> reg c' r = reg c r) /\ ram c' = ram c.
Definition rot_name (left : bool) : string := if left then "rol" else "ror".

Definition rotated (left : bool) (v n : Z) : Z :=
  let k := n mod 32 in
  if left then (v * 2 ^ k) mod 2 ^ 32 + v / 2 ^ (32 - k) else v / 2 ^ k + (v * 2 ^ (32 - k)) mod 2 ^ 32.

(** ** Unaligned accesses *)

(** [count] bytes, the lowest first. *)
Fixpoint bytes_at (count : nat) (c : cpu) (a : Z) : Z :=
  match count with O => 0 | S n => peek c a + 256 * bytes_at n c (a + 1) end.
(** The memory after the [count] lowest bytes of [v] were stored from address [a] on. *)
Definition bytes_put (count : Z) (m : Z -> Z) (a v : Z) (x : Z) : Z :=
  let k := u32 (x - a) in if k <? count then bits v (8 * k) 8 else m x.
