(** What a MIPS processor does with an instruction word.

    The reference for the properties about branches, immediates and macros: fields of a word, where a
    branch goes, how an immediate is read, which words mean the same, and a machine with 32 registers
    of 32 bits and a memory of bytes (little endian).  Nothing here uses the model of the assembler. *)

Require Import ZArith Bool List String Ascii.
Require Import Verif.Ints.
Import ListNotations.
Local Open Scope Z_scope.

(** ** Fields *)

Definition w_op (w : Z) : Z := bits w 26 6.
Definition w_rs (w : Z) : Z := bits w 21 5.
Definition w_rt (w : Z) : Z := bits w 16 5.
Definition w_rd (w : Z) : Z := bits w 11 5.
Definition w_sa (w : Z) : Z := bits w 6 5.
Definition w_fn (w : Z) : Z := bits w 0 6.
Definition w_imm (w : Z) : Z := bits w 0 16.
Definition w_simm (w : Z) : Z := s16 (w_imm w).
Definition w_index (w : Z) : Z := bits w 0 26.

Definition among (x : Z) (l : list Z) : bool := existsb (Z.eqb x) l.

(** ** Branches *)

(** Conditional branches, with and without annulled delay slot and link, and the branches of the
    coprocessors 1 and 2. *)
Definition is_relative (w : Z) : bool :=
  among (w_op w) [4; 5; 6; 7; 20; 21; 22; 23] ||
  ((w_op w =? 1) && among (w_rt w) [0; 1; 2; 3; 16; 17; 18; 19]) ||
  (among (w_op w) [17; 18] && (w_rs w =? 8)).
Definition is_jump (w : Z) : bool := among (w_op w) [2; 3].
(** Where the word at address [pc] goes. *)
Definition branch_target (pc w : Z) : option Z :=
  if is_relative w then Some (u32 (pc + 4 + 4 * w_simm w))
  else if is_jump w then Some (u32 (pc + 4) / 2 ^ 28 * 2 ^ 28 + 4 * w_index w)
  else None.

(** ** Immediates *)

(** How the processor takes a number from an instruction: a sign-extended 16-bit immediate for
    arithmetic, comparisons, traps, loads and stores, a zero-extended one for logic and [lui], the
    amount of a shift.  [vfpu]: the processor has the vector unit of the PSP, which uses some of the
    operation codes of 64-bit processors for other things.  Not covered: the loads and stores of
    coprocessor 2 and the vector units. *)
Inductive immediate := Signed16 | Unsigned16 | Amount.
Definition immediate_kind (vfpu : bool) (w : Z) : option immediate :=
  if among (w_op w) [8; 9; 10; 11] then Some Signed16
  else if among (w_op w) [12; 13; 14; 15] then Some Unsigned16
  else if (w_op w =? 1) && among (w_rt w) [8; 9; 10; 11; 12; 14] then Some Signed16
  else if among (w_op w) [32; 33; 34; 35; 36; 37; 38; 39; 40; 41; 42; 43; 46; 47; 48; 49; 56; 57] then Some Signed16
  else if negb vfpu && among (w_op w) [24; 25; 26; 27; 30; 31; 44; 45; 52; 53; 55; 60; 61; 63] then Some Signed16
  else if (w_op w =? 0) && among (w_fn w) [0; 2; 3; 56; 58; 59; 60; 62; 63] then Some Amount
  else None.
Definition word_immediate (k : immediate) (w : Z) : Z :=
  match k with Signed16 => w_simm w | Unsigned16 => w_imm w | Amount => w_sa w end.
Definition representable (k : immediate) (z : Z) : Prop :=
  match k with Signed16 => -32768 <= z < 32768 | Unsigned16 => 0 <= z < 65536 | Amount => 0 <= z < 32 end.

(** ** The machine *)

Record cpu := mkCpu { reg : Z -> Z; ram : Z -> Z }.
(** Registers and bytes have their size, and register 0 is 0. *)
Definition sane (c : cpu) : Prop :=
  reg c 0 = 0 /\ (forall r, 0 <= reg c r < 2 ^ 32) /\ (forall a, 0 <= ram c a < 256).
(** Register 0 cannot be written. *)
Definition set (c : cpu) (r v : Z) : cpu :=
  if r =? 0 then c else mkCpu (fun x => if x =? r then u32 v else reg c x) (ram c).
Definition poke (c : cpu) (a v : Z) : cpu := mkCpu (reg c) (fun x => if x =? u32 a then u8 v else ram c x).

Definition b2z (b : bool) : Z := if b then 1 else 0.
Definition peek (c : cpu) (a : Z) : Z := ram c (u32 a).
(** Little endian. *)
Definition peek16 (c : cpu) (a : Z) : Z := peek c a + 256 * peek c (a + 1).
Definition peek32 (c : cpu) (a : Z) : Z := peek16 c a + 65536 * peek16 c (a + 2).
Definition poke16 (c : cpu) (a v : Z) : cpu := poke (poke c a v) (a + 1) (v / 256).
Definition poke32 (c : cpu) (a v : Z) : cpu := poke16 (poke16 c a v) (a + 2) (v / 65536).
Definition rotate_right (v n : Z) : Z := v / 2 ^ n + v mod 2 ^ n * 2 ^ (32 - n).

(** [lwl] and [lwr]: the bytes of the aligned word around [a], from its start to [a] and from [a] to
    its end; likewise [swl] and [swr]. *)
Definition word_left (c : cpu) (a old : Z) : Z :=
  let k := a mod 4 in
  old mod 2 ^ (8 * (3 - k)) + peek32 c (a - k) mod 2 ^ (8 * (k + 1)) * 2 ^ (8 * (3 - k)).
Definition word_right (c : cpu) (a old : Z) : Z :=
  let k := a mod 4 in
  peek32 c (a - k) / 2 ^ (8 * k) + old / 2 ^ (8 * (4 - k)) * 2 ^ (8 * (4 - k)).
Fixpoint poke_n (n : nat) (c : cpu) (a v : Z) : cpu :=
  match n with O => c | S n => poke_n n (poke c a v) (a + 1) (v / 256) end.
Definition store_left (c : cpu) (a v : Z) : cpu :=
  let k := a mod 4 in poke_n (Z.to_nat (k + 1)) c (a - k) (v / 2 ^ (8 * (3 - k))).
Definition store_right (c : cpu) (a v : Z) : cpu :=
  let k := a mod 4 in poke_n (Z.to_nat (4 - k)) c a v.

(** One instruction that is not a branch; [None]: an instruction the machine does not know, or an
    address that is not aligned. *)
Definition exec (w : Z) (c : cpu) : option cpu :=
  let s := reg c (w_rs w) in
  let t := reg c (w_rt w) in
  let a := u32 (s + w_simm w) in
  let to r v := Some (set c r v) in
  match w_op w with
  | 0 =>
    match w_fn w with
    | 0 => if w_rs w =? 0 then to (w_rd w) (t * 2 ^ w_sa w) else None
    | 2 => if w_rs w =? 0 then to (w_rd w) (t / 2 ^ w_sa w)
           else if w_rs w =? 1 then to (w_rd w) (rotate_right t (w_sa w)) else None
    | 3 => if w_rs w =? 0 then to (w_rd w) (s32 t / 2 ^ w_sa w) else None
    | 4 => if w_sa w =? 0 then to (w_rd w) (t * 2 ^ (s mod 32)) else None
    | 6 => if w_sa w =? 0 then to (w_rd w) (t / 2 ^ (s mod 32))
           else if w_sa w =? 1 then to (w_rd w) (rotate_right t (s mod 32)) else None
    | 7 => if w_sa w =? 0 then to (w_rd w) (s32 t / 2 ^ (s mod 32)) else None
    | fn =>
      if negb (w_sa w =? 0) then None
      else match fn with
           | 0x21 => to (w_rd w) (s + t)
           | 0x23 => to (w_rd w) (s - t)
           | 0x24 => to (w_rd w) (Z.land s t)
           | 0x25 => to (w_rd w) (Z.lor s t)
           | 0x26 => to (w_rd w) (Z.lxor s t)
           | 0x27 => to (w_rd w) (Z.lnot (Z.lor s t))
           | 0x2A => to (w_rd w) (b2z (s32 s <? s32 t))
           | 0x2B => to (w_rd w) (b2z (s <? t))
           | _ => None
           end
    end
  | 9 => to (w_rt w) (s + w_simm w)
  | 10 => to (w_rt w) (b2z (s32 s <? w_simm w))
  | 11 => to (w_rt w) (b2z (s <? u32 (w_simm w)))
  | 12 => to (w_rt w) (Z.land s (w_imm w))
  | 13 => to (w_rt w) (Z.lor s (w_imm w))
  | 14 => to (w_rt w) (Z.lxor s (w_imm w))
  | 15 => if w_rs w =? 0 then to (w_rt w) (w_imm w * 65536) else None
  | 0x20 => to (w_rt w) (s8 (peek c a))
  | 0x21 => if a mod 2 =? 0 then to (w_rt w) (s16 (peek16 c a)) else None
  | 0x22 => to (w_rt w) (word_left c a t)
  | 0x23 => if a mod 4 =? 0 then to (w_rt w) (peek32 c a) else None
  | 0x24 => to (w_rt w) (peek c a)
  | 0x25 => if a mod 2 =? 0 then to (w_rt w) (peek16 c a) else None
  | 0x26 => to (w_rt w) (word_right c a t)
  | 0x28 => Some (poke c a t)
  | 0x29 => if a mod 2 =? 0 then Some (poke16 c a t) else None
  | 0x2A => Some (store_left c a t)
  | 0x2B => if a mod 4 =? 0 then Some (poke32 c a t) else None
  | 0x2E => Some (store_right c a t)
  | _ => None
  end.
Fixpoint run (ws : list Z) (c : cpu) : option cpu :=
  match ws with
  | [] => Some c
  | w :: ws => match exec w c with Some c => run ws c | None => None end
  end.

(** Whether a conditional branch on two registers is taken, and whether it annuls its delay slot when
    it is not. *)
Definition branch_if (w : Z) (c : cpu) : option (bool * bool) :=
  let eq := reg c (w_rs w) =? reg c (w_rt w) in
  match w_op w with
  | 4 => Some (eq, false)
  | 5 => Some (negb eq, false)
  | 0x14 => Some (eq, true)
  | 0x15 => Some (negb eq, true)
  | _ => None
  end.

(** The access a load or store makes: its operation, the register it transfers and its address.  All
    loads and stores, also of 64 bits and of the coprocessors. *)
Definition is_access (w : Z) : bool :=
  among (w_op w) [0x1A; 0x1B; 0x20; 0x21; 0x22; 0x23; 0x24; 0x25; 0x26; 0x27; 0x28; 0x29; 0x2A; 0x2B; 0x2C; 0x2D; 0x2E;
                  0x30; 0x31; 0x32; 0x34; 0x35; 0x36; 0x37; 0x38; 0x39; 0x3A; 0x3C; 0x3D; 0x3E; 0x3F].
Definition access_of (w : Z) (c : cpu) : option (Z * Z * Z) :=
  if is_access w then Some (w_op w, w_rt w, u32 (reg c (w_rs w) + w_simm w)) else None.

(** ** Names for the same instruction *)

(** Mnemonics that stand for a special case of another one, or for the same instruction. *)
Definition synonyms : list (list string) :=
  [["addu"; "move"; "clear"]; ["sub"; "neg"]; ["subu"; "negu"]; ["xor"; "eor"]; ["nor"; "not"]; ["slt"; "sgt"];
   ["sltu"; "sgtu"]; ["daddu"; "dmove"]; ["dsub"; "dneg"]; ["dsubu"; "dnegu"]; ["sll"; "nop"]; ["addi"; "subi"];
   ["addiu"; "subiu"]; ["daddi"; "dsubi"]; ["daddiu"; "dsubiu"]; ["beq"; "beqz"; "b"]; ["bne"; "bnez"];
   ["beql"; "beqzl"]; ["bnel"; "bnezl"]; ["bgezal"; "bal"]; ["lwc1"; "l.s"]; ["ldc1"; "l.d"]; ["swc1"; "s.s"];
   ["sdc1"; "s.d"]]%string ++
  flat_map (fun b => map (fun c => [b; (b ++ "." ++ fst c)%string; (b ++ "." ++ snd c)%string])
                         [("x", "0"); ("y", "1"); ("z", "2"); ("w", "3"); ("any", "4"); ("all", "5")]%string)
           ["bvf"; "bvt"; "bvfl"; "bvtl"]%string.
Definition together (l : list (list string)) (a b : string) : bool :=
  existsb (fun g => existsb (String.eqb a) g && existsb (String.eqb b) g) l.
