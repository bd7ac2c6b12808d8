(** Which registers an R3000 instruction reads, and which one a load writes late.

    From the instruction word alone, after the opcode maps of the R3000 manual. *)

Require Import ZArith Bool List.
Require Import Verif.Ints.
Import ListNotations.
Local Open Scope Z_scope.

Definition is (x : Z) (l : list Z) : bool := existsb (Z.eqb x) l.

(** sllv srlv srav jr jalr mthi mtlo mult multu div divu add addu sub subu and or xor nor slt sltu;
    bltz.. beq bne blez bgtz addi addiu slti sltiu andi ori xori; loads and stores. *)
Definition uses_rs (op fn : Z) : bool :=
  if op =? 0 then is fn [0x04; 0x06; 0x07; 0x08; 0x09; 0x11; 0x13; 0x18; 0x19; 0x1A; 0x1B;
                         0x20; 0x21; 0x22; 0x23; 0x24; 0x25; 0x26; 0x27; 0x2A; 0x2B]
  else is op [0x01; 0x04; 0x05; 0x06; 0x07; 0x08; 0x09; 0x0A; 0x0B; 0x0C; 0x0D; 0x0E;
              0x20; 0x21; 0x22; 0x23; 0x24; 0x25; 0x26; 0x28; 0x29; 0x2A; 0x2B; 0x2E;
              0x30; 0x31; 0x32; 0x33; 0x38; 0x39; 0x3A; 0x3B].
(** sll srl sra and the above; beq bne; mtcz ctcz; sb sh swl sw swr.  [lwl] and [lwr] also use the old
    value, but get it from the load in progress: two of them in a row need no nop. *)
Definition uses_rt (op fn rs : Z) : bool :=
  if op =? 0 then is fn [0x00; 0x02; 0x03; 0x04; 0x06; 0x07; 0x18; 0x19; 0x1A; 0x1B;
                         0x20; 0x21; 0x22; 0x23; 0x24; 0x25; 0x26; 0x27; 0x2A; 0x2B]
  else if is op [0x10; 0x11; 0x12; 0x13] then is rs [4; 6]
  else is op [0x04; 0x05; 0x28; 0x29; 0x2A; 0x2B; 0x2E].

Definition op_of (w : Z) : Z := bits w 26 6.
Definition fn_of (w : Z) : Z := bits w 0 6.
Definition rs_of (w : Z) : Z := bits w 21 5.
Definition rt_of (w : Z) : Z := bits w 16 5.

Definition word_reads (w r : Z) : Prop :=
  (uses_rs (op_of w) (fn_of w) = true /\ rs_of w = r) \/
  (uses_rt (op_of w) (fn_of w) (rs_of w) = true /\ rt_of w = r).

(** lb lh lwl lw lbu lhu lwr *)
Definition is_load (op : Z) : bool := is op [0x20; 0x21; 0x22; 0x23; 0x24; 0x25; 0x26].

(** The second instruction reads what the first is still loading.  Register 0 is never loaded. *)
Definition hazard (w1 w2 : Z) : Prop :=
  exists r, is_load (op_of w1) = true /\ rt_of w1 = r /\ r <> 0 /\ word_reads w2 r.

(** Two neighbours in a list. *)
Definition adjacent {A} (x y : A) (l : list A) : Prop := exists l1 l2, l = l1 ++ x :: y :: l2.
