(** What a MIPS instruction looks like: registers, operand syntax, fields and fixed bits.

    This is the reference the encoder is compared with.  It is organised by instruction format, as in
    the processor manuals (MIPS R3000/R4000, R5900 for the PS2, Allegrex and VFPU for the PSP, RSP), and
    does not use the opcode table, its flags or its operand letters. *)

Require Import ZArith Bool List String Ascii.
Require Import Verif.Ints Verif.MipsTable Verif.MipsModel.
Import ListNotations.
Local Open Scope string_scope.
Local Open Scope list_scope.
Local Open Scope Z_scope.

(** ** Register names *)

(** A number without leading zeros; [two] writes at least two digits. *)
Definition digit (n : nat) : string := String (ascii_of_nat (48 + n)) EmptyString.
Definition dec (n : nat) : string := if Nat.ltb n 10 then digit n else (digit (Nat.div n 10) ++ digit (Nat.modulo n 10))%string.
Definition two (n : nat) : string := (digit (Nat.div n 10) ++ digit (Nat.modulo n 10))%string.
Definition numbered (prefix : string) (show : nat -> string) (count : nat) : list (string * Z) :=
  map (fun n => ((prefix ++ show n)%string, Z.of_nat n)) (seq 0 count).
(** The names of consecutive registers. *)
Fixpoint from (n : Z) (names : list string) : list (string * Z) :=
  match names with [] => [] | s :: r => (s, n) :: from (n + 1) r end.

Inductive regkind := Gpr | Fpr | Fcr | Cp0 | Vf | GteData | GteCtrl | SpCp0 | SpVc | SpV.

Definition names_of (k : regkind) : list (string * Z) :=
  match k with
  | Gpr =>
    numbered "r" dec 32 ++
    from 0 ["zero"; "at"; "v0"; "v1"; "a0"; "a1"; "a2"; "a3"; "t0"; "t1"; "t2"; "t3"; "t4"; "t5"; "t6"; "t7";
            "s0"; "s1"; "s2"; "s3"; "s4"; "s5"; "s6"; "s7"; "t8"; "t9"; "k0"; "k1"; "gp"; "sp"; "fp"; "ra"] ++
    [("s8", 30)]
  | Fpr => numbered "f" dec 32 ++ numbered "f" two 32
  | Fcr => [("fir", 0); ("fcr0", 0); ("fcsr", 31); ("fcr31", 31)]
  | Cp0 =>
    from 0 ["index"; "random"; "entrylo0"; "entrylo1"; "context"; "pagemask"; "wired"] ++
    from 8 ["badvaddr"; "count"; "entryhi"; "compare"; "status"; "cause"; "epc"; "prid"; "config"; "lladdr";
            "watchlo"; "watchhi"; "xcontext"] ++
    from 26 ["perr"; "cacheerr"; "taglo"; "taghi"; "errorepc"] ++
    [("entrylo", 2); ("sr", 12); ("badpaddr", 23); ("ecc", 26)]
  | Vf => numbered "vf" dec 32 ++ numbered "vf" two 32
  | GteData =>
    from 0 ["vxy0"; "vz0"; "vxy1"; "vz1"; "vxy2"; "vz2"; "rgbc"; "otz"; "ir0"; "ir1"; "ir2"; "ir3";
            "sxy0"; "sxy1"; "sxy2"; "sxyp"; "sz0"; "sz1"; "sz2"; "sz3"; "rgb0"; "rgb1"; "rgb2"; "res1";
            "mac0"; "mac1"; "mac2"; "mac3"; "irgb"; "orgb"; "lzcs"; "lzcr"]
  | GteCtrl =>
    from 0 ["rt0"; "rt1"; "rt2"; "rt3"; "rt4"; "trx"; "try"; "trz"; "llm0"; "llm1"; "llm2"; "llm3"; "llm4";
            "rbk"; "gbk"; "bbk"; "lcm0"; "lcm1"; "lcm2"; "lcm3"; "lcm4"; "rfc"; "gfc"; "bfc"; "ofx"; "ofy"; "h";
            "dqa"; "dqb"; "zsf3"; "zsf4"; "flag"]
  | SpCp0 =>
    from 0 ["sp_mem_addr"; "sp_dram_addr"; "sp_rd_len"; "sp_wr_len"; "sp_status"; "sp_dma_full"; "sp_dma_busy";
            "sp_semaphore"; "dpc_start"; "dpc_end"; "dpc_current"; "dpc_status"; "dpc_clock"; "dpc_bufbusy";
            "dpc_pipebusy"; "dpc_tmem"]
  | SpVc => from 0 ["vco"; "vcc"; "vce"]
  | SpV => numbered "v" dec 32 ++ numbered "v" two 32
  end.

Fixpoint look_up (l : list (string * Z)) (s : string) : option Z :=
  match l with
  | [] => None
  | (n, v) :: r => if String.eqb n s then Some v else look_up r s
  end.

(** [$n] names register [n] of every file but the two vector files. *)
Definition dollar_ok (k : regkind) : bool := match k with Vf | SpV => false | _ => true end.
Definition register (k : regkind) (p : piece) : option Z :=
  match p with
  | PName _ s _ => look_up (names_of k) s
  | PDollar n => if dollar_ok k && (Z.of_N n <=? 31) then Some (Z.of_N n) else None
  | _ => None
  end.

(** ** VFPU registers *)

(** The number of elements a mnemonic's suffix asks for. *)
Fixpoint last_char (s : string) : option ascii :=
  match s with
  | EmptyString => None
  | String c EmptyString => Some c
  | String _ r => last_char r
  end.
Definition elements (name : string) : option Z :=
  if String.eqb name "mfv" || String.eqb name "mtv" then Some 1
  else match last_char name with
       | Some "s"%char => Some 1
       | Some "p"%char => Some 2
       | Some "t"%char => Some 3
       | Some "q"%char => Some 4
       | _ => None
       end.
Inductive vscale := Same | One | Half | Twice | Quarter | Fourfold.
Definition scaled (s : vscale) (n : Z) : option Z :=
  match s, n with
  | Same, _ => Some n
  | One, _ => Some 1
  | Half, 2 => Some 1 | Half, 4 => Some 2
  | Twice, 1 => Some 2 | Twice, 2 => Some 4
  | Quarter, 4 => Some 1
  | Fourfold, 1 => Some 4
  | _, _ => None
  end.

(** The number of a VFPU register: [SMCR] is an element, [CMCR] a column and [RMCR] a row of matrix [M]
    that starts at column [C] and row [R]; [MMCR] and [EMCR] are a matrix and its transpose. *)
Definition digit_value (c : ascii) : option Z := look_up (numbered "" dec 10) (String c EmptyString).
Definition start (n k : Z) : option Z :=
  (* where a vector of n elements may start, as it enters the number *)
  if n =? 1 then Some (32 * k)
  else if n =? 3 then if k <=? 1 then Some (64 * k) else None
  else if (k =? 0) || (k =? 2) then Some (32 * k) else None.
Definition vfpu_register (n : Z) (matrix : bool) (p : piece) : option Z :=
  match p with
  | PName false (String k (String m (String c (String r EmptyString)))) _ =>
    match digit_value m, digit_value c, digit_value r with
    | Some m, Some c, Some r =>
      if (7 <? m) || (3 <? c) || (3 <? r) then None
      else
        let number base line at_ := match start n at_ with Some o => Some (base + 4 * m + line + o) | None => None end in
        match k, matrix with
        | "s"%char, false => if n =? 1 then number 0 c r else None
        | "c"%char, false => if n =? 1 then None else number 0 c r
        | "r"%char, false => if n =? 1 then None else number 32 r c
        | "m"%char, true => if n =? 1 then None else number 0 c r
        | "e"%char, true => if n =? 1 then None else number 32 c r
        | _, _ => None
        end
    | _, _, _ => None
    end
  | _ => None
  end.

(** ** Operands *)

(** A field: [len] bits of the instruction from bit [pos] on hold the bits of the operand from bit
    [skip] on. *)
Record slice := mkSlice { f_pos : Z; f_len : Z; f_skip : Z }.

Inductive item :=
| Reg (k : regkind) (f : list slice)
| Vec (s : vscale) (f : list slice)
| Vec6 (f : list slice)               (* a quad register with an even row, six bits *)
| Ctl (f : list slice)
| Mat (f : list slice)
| MatT (f : list slice)               (* the transpose of the matrix written *)
| Elem (f : list slice)
| Scalar (f : list slice)
| Offset (f : list slice)
| Imm (f : list slice)
| Code (f : list slice)               (* the operation of cache *)
| HalfFloat (f : list slice)
| Size (f : list slice)               (* ext: the highest bit of the field *)
| Msb (f : list slice)                (* ins: the highest bit of the destination *)
| Cc (f : list slice)
| Cond (f : list slice)
| Arg (w : vecarg) (f : list slice)
| Zero
| Wb
| Punct (c : ascii).

(** The integer an operand stands for. *)
Definition integer (p : piece) : option Z :=
  match p with
  | PInt n _ => Some (Z.of_N n)
  | PExpr (VInt z _) => Some z
  | PName false s (VInt z _) => match look_up (names_of Gpr) s with Some _ => None | None => Some z end
  | _ => None
  end.
Definition half (p : piece) : option Z :=
  match p with
  | PInt _ h => Some h
  | PExpr (VInt _ h) | PExpr (VFloat h) => Some h
  | PName false s v =>
    match look_up (names_of Gpr) s, v with
    | None, VInt _ h | None, VFloat h => Some h
    | _, _ => None
    end
  | _ => None
  end.

(** The elements of an RSP vector register: [$n], or a broadcast such as [2h]. *)
Definition broadcast : list (string * Z) :=
  (from 2 ["0q"; "1q"] ++ from 4 ["0h"; "1h"; "2h"; "3h"] ++
   from 8 ["0w"; "1w"; "2w"; "3w"; "4w"; "5w"; "6w"; "7w"] ++ from 8 ["0"; "1"; "2"; "3"; "4"; "5"; "6"; "7"]).

Definition vfpu_cc : list (string * Z) :=
  (from 0 ["x"; "y"; "z"; "w"; "any"; "all"] ++ from 0 ["0"; "1"; "2"; "3"; "4"; "5"]).
Definition vfpu_cond : list (string * Z) :=
  from 0 ["fl"; "eq"; "lt"; "le"; "tr"; "ne"; "ge"; "gt"; "ez"; "en"; "ei"; "es"; "nz"; "nn"; "ni"; "ns"]%string.
Definition vfpu_ctrl : list (string * Z) :=
  from 0 ["spfx"; "tpfx"; "dpfx"; "cc"; "inf4"; "rsv5"; "rsv6"; "rev"; "rcx0"; "rcx1"; "rcx2"; "rcx3"; "rcx4";
          "rcx5"; "rcx6"; "rcx7"]%string.

(** What an immediate means to the instruction. *)
Inductive meaning := Plain | Negated | Branch | Jump | Units (n : Z).
Definition mem (s : string) (l : list string) : bool := existsb (String.eqb s) l.
Fixpoint stem (s : string) : string :=
  match s with
  | EmptyString => EmptyString
  | String "." _ => EmptyString
  | String c r => String c (stem r)
  end.
Definition immediate_of (name : string) : meaning :=
  if mem name ["j"; "jal"] then Jump
  else if mem name ["b"; "bal"; "beq"; "bne"; "beqz"; "bnez"; "blez"; "bgtz"; "bltz"; "bgez"; "bltzal"; "bgezal";
                    "beql"; "bnel"; "beqzl"; "bnezl"; "blezl"; "bgtzl"; "bltzl"; "bgezl"; "bltzall"; "bgezall";
                    "bc1f"; "bc1t"; "bc1fl"; "bc1tl"] then Branch
  else if mem (stem name) ["bvf"; "bvt"; "bvfl"; "bvtl"] then Branch
  else if mem name ["subi"; "subiu"; "dsubi"; "dsubiu"] then Negated
  else if mem name ["lsv"; "ssv"] then Units 2
  else if mem name ["llv"; "slv"] then Units 4
  else if mem name ["ldv"; "sdv"; "lpv"; "spv"; "luv"; "suv"] then Units 8
  else if mem name ["lqv"; "sqv"; "lrv"; "srv"; "lhv"; "shv"; "lfv"; "sfv"; "swv"; "ltv"; "stv"] then Units 16
  else Plain.
Definition meant (m : meaning) (pc z : Z) : Z :=
  match m with
  | Plain => z
  | Negated => - z
  | Branch => (z - (pc + 4)) / 4
  | Jump => z / 4
  | Units n => z / n
  end.

Definition fill (f : list slice) (v : Z) : list (slice * Z) := map (fun x => (x, v)) f.
Definition first (ps : list piece) (f : list slice) (read : piece -> option Z) : option (list (slice * Z) * list piece) :=
  match ps with
  | p :: r => match read p with Some v => Some (fill f v, r) | None => None end
  | [] => None
  end.

(** One operand: the fields it fills and what is left of the operand list.  [prim] is the last immediate. *)
Definition read_item (name : string) (pc : Z) (prim : Z) (it : item) (ps : list piece) :
  option (list (slice * Z) * list piece) :=
  let sized s k := match elements name with
                   | Some n => match scaled s n with Some n => k n | None => None end
                   | None => None
                   end in
  match it with
  | Reg k f => first ps f (register k)
  | Vec s f => sized s (fun n => first ps f (vfpu_register n false))
  | Vec6 f => first ps f (fun p => match vfpu_register 4 false p with
                                   | Some v => if v <? 64 then Some v else None
                                   | None => None
                                   end)
  | Ctl f => first ps f (fun p => match p with
                                  | PName false s _ => look_up vfpu_ctrl s
                                  | PInt n _ => if Z.of_N n <? 16 then Some (Z.of_N n) else None
                                  | _ => None
                                  end)
  | Mat f => sized Same (fun n => first ps f (vfpu_register n true))
  | MatT f => sized Same (fun n => first ps f (fun p => match vfpu_register n true p with
                                                        | Some v => Some (if Z.testbit v 5 then v - 32 else v + 32)
                                                        | None => None
                                                        end))
  | Elem f =>
    match ps with
    | PBrack (BDollar n) :: r => if Z.of_N n <? 16 then Some (fill f (Z.of_N n), r) else None
    | PBrack (BNumber t _) :: r => match look_up broadcast t with Some v => Some (fill f v, r) | None => None end
    | _ => Some (fill f 0, ps)
    end
  | Scalar f =>
    match ps with
    | PBrack (BNumber _ (Some n)) :: r => if Z.of_N n <? 8 then Some (fill f (8 + Z.of_N n), r) else None
    | _ => None
    end
  | Offset f =>
    match ps with
    | PBrack (BNumber _ (Some n)) :: r => if Z.of_N n <? 16 then Some (fill f (Z.of_N n), r) else None
    | PBrack _ :: _ => None
    | _ => Some (fill f 0, ps)
    end
  | Imm f => first ps f (fun p => match integer p with
                                  | Some z => Some (meant (immediate_of name) pc z)
                                  | None => None
                                  end)
  | Code f => first ps f integer
  | HalfFloat f => first ps f half
  | Size f => first ps f (fun p => match integer p with Some z => Some (z - 1) | None => None end)
  | Msb f => first ps f (fun p => match integer p with Some z => Some (prim + z - 1) | None => None end)
  | Cc f => first ps f (fun p => match p with
                                 | PInt n _ => if Z.of_N n <? 6 then Some (Z.of_N n) else None
                                 | PName false s _ => look_up vfpu_cc s
                                 | _ => None
                                 end)
  | Cond f => first ps f (fun p => match p with PName false s _ => look_up vfpu_cond s | _ => None end)
  | Arg w f => first ps f (fun p => match p with
                                    | PVec n => if vec_range w (Z.of_N n) then Some (Z.of_N n) else None
                                    | _ => None
                                    end)
  | Zero => first ps [] (fun p => match register Gpr p with Some 0 => Some 0 | _ => None end)
  | Wb => first ps [] (fun p => match p with
                                | PName false s _ => if String.eqb s "wb" then Some 0 else None
                                | _ => None
                                end)
  | Punct c => first ps [] (fun p => match p with
                                     | PSym d => if Ascii.eqb c d then Some 0 else None
                                     | _ => None
                                     end)
  end.

Definition next_prim (it : item) (ps : list piece) (prim : Z) : Z :=
  match it, ps with
  | Imm _, p :: _ => match integer p with Some z => z | None => prim end
  | _, _ => prim
  end.
Fixpoint read_items (name : string) (pc : Z) (prim : Z) (its : list item) (ps : list piece) : option (list (slice * Z)) :=
  match its with
  | [] => match ps with [] => Some [] | _ => None end
  | it :: its =>
    match read_item name pc prim it ps with
    | Some (v, r) => match read_items name pc (next_prim it ps prim) its r with
                     | Some vs => Some (v ++ vs)
                     | None => None
                     end
    | None => None
    end
  end.

(** ** Formats *)

Definition fld (pos len : Z) : list slice := [mkSlice pos len 0].
Definition RS := fld 21 5.
Definition RT := fld 16 5.
Definition RD := fld 11 5.
Definition SA := fld 6 5.
Definition FT := RT.
Definition FS := RD.
Definition FD := SA.

Definition s_ := Reg Gpr RS.
Definition t_ := Reg Gpr RT.
Definition d_ := Reg Gpr RD.
Definition fs_ := Reg Fpr FS.
Definition ft_ := Reg Fpr FT.
Definition fd_ := Reg Fpr FD.
Definition i16_ := Imm (fld 0 16).
Definition sa_ := Imm SA.

(** Operands with commas between them. *)
Fixpoint args (l : list item) : list item :=
  match l with
  | [] => []
  | [x] => [x]
  | x :: r => x :: Punct "," :: args r
  end.
Definition brackets (x : item) : list item := [Punct "("; x; Punct ")"].
(** [x, imm(s)] and [x, (s)]. *)
Definition memory (x imm : item) : list (list item) :=
  [[x; Punct ","; imm] ++ brackets s_; [x; Punct ","] ++ brackets s_].

(** An instruction: mnemonic, ways to write it, fixed bits, processors. *)
Record instruction := mkInstr {
  n_name : string; n_forms : list (list item); n_base : Z; n_on : list mips_arch }.

Definition cpus := [PSX; N64; PS2; PSP; RSP].
Definition group (on : list mips_arch) (forms : list (list item)) (codes : list (string * Z)) : list instruction :=
  map (fun c => mkInstr (fst c) forms (snd c) on) codes.
(** The codes of a group, placed in a field. *)
Definition at_ (shift base : Z) (codes : list (string * Z)) : list (string * Z) :=
  map (fun c => (fst c, base + snd c * 2 ^ shift)) codes.
Definition op := at_ 26 0.
Definition special := at_ 0 0.
Definition regimm := at_ 16 (1 * 2 ^ 26).
Definition cop0 := at_ 21 (16 * 2 ^ 26).
Definition cop0_co := at_ 0 (16 * 2 ^ 26 + 16 * 2 ^ 21).
Definition cop1 := at_ 21 (17 * 2 ^ 26).
Definition cop1_bc := at_ 16 (17 * 2 ^ 26 + 8 * 2 ^ 21).
Definition cop1_fmt (fmt : Z) := at_ 0 (17 * 2 ^ 26 + fmt * 2 ^ 21).
Definition cop2 := at_ 21 (18 * 2 ^ 26).

(** The integer instructions. *)
Definition core : list instruction :=
  (* three registers; two when the first is also the first source *)
  group cpus [args [d_; s_; t_]; args [Reg Gpr (RS ++ RD); t_]]
    (special (from 0x20 ["add"; "addu"; "sub"; "subu"; "and"; "or"; "xor"; "nor"] ++
              [("eor", 0x26); ("slt", 0x2A); ("sltu", 0x2B)] ++ from 0x2C ["dadd"; "daddu"; "dsub"; "dsubu"])) ++
  group [PS2; PSP; N64] [args [d_; s_; t_]] (special [("movz", 0x0A); ("movn", 0x0B)]) ++
  group [PSP] [args [d_; s_; t_]] (special [("max", 0x2C); ("min", 0x2D)]) ++
  group [PS2] [args [d_; s_; t_]] (special [("mult", 0x18); ("multu", 0x19)]) ++
  (* sgt d,t,s is slt with the operands exchanged *)
  group cpus [args [d_; t_; s_]; args [Reg Gpr (RD ++ RT); s_]] (special [("sgt", 0x2A); ("sgtu", 0x2B)]) ++
  (* one source *)
  group cpus [args [d_; s_]] (special [("move", 0x21); ("not", 0x27); ("dmove", 0x2D)]) ++
  group [PSP] [args [d_; s_]] (special [("clz", 0x16); ("clo", 0x17)]) ++
  group cpus [args [d_; t_]] (special [("neg", 0x22); ("negu", 0x23); ("dneg", 0x2E); ("dnegu", 0x2F)]) ++
  group cpus [[d_]] (special [("clear", 0x21); ("mfhi", 0x10); ("mflo", 0x12); ("mfsa", 0x28)]) ++
  group cpus [[s_]] (special [("jr", 0x08); ("mthi", 0x11); ("mtlo", 0x13); ("mtsa", 0x29)]) ++
  group cpus [args [s_; d_]] (special [("jalr", 0x09)]) ++
  group cpus [[s_]] [("jalr", 0x09 + 31 * 2 ^ 11)] ++
  (* shifts *)
  group cpus [args [d_; t_; sa_]; args [Reg Gpr (RD ++ RT); sa_]]
    (special [("sll", 0x00); ("srl", 0x02); ("sra", 0x03); ("dsll", 0x38); ("dsrl", 0x3A); ("dsra", 0x3B);
              ("dsll32", 0x3C); ("dsrl32", 0x3E); ("dsra32", 0x3F)]) ++
  group [PSP] [args [d_; t_; sa_]; args [Reg Gpr (RD ++ RT); sa_]] [("rotr", 0x02 + 1 * 2 ^ 21)] ++
  group cpus [args [d_; t_; s_]; args [Reg Gpr (RD ++ RT); s_]]
    (special [("sllv", 0x04); ("srlv", 0x06); ("srav", 0x07); ("dsllv", 0x14); ("dsrlv", 0x16); ("dsrav", 0x17)]) ++
  group [PSP] [args [d_; t_; s_]; args [Reg Gpr (RD ++ RT); s_]] [("rotrv", 0x06 + 1 * 2 ^ 6)] ++
  (* multiplication and division *)
  group cpus [args [s_; t_]; args [Zero; s_; t_]]
    (special (from 0x18 ["mult"; "multu"; "div"; "divu"])) ++
  group [N64] [args [s_; t_]; args [Zero; s_; t_]] (special (from 0x1C ["dmult"; "dmultu"; "ddiv"; "ddivu"])) ++
  group [PSP] [args [s_; t_]] (special [("madd", 0x1C); ("maddu", 0x1D); ("msub", 0x2E); ("msubu", 0x2F)]) ++
  (* traps and system *)
  group cpus [args [s_; t_; Imm (fld 6 10)]; args [s_; t_]]
    (special (from 0x30 ["tge"; "tgeu"; "tlt"; "tltu"; "teq"] ++ [("tne", 0x36)])) ++
  group cpus [[Imm (fld 6 20)]; []] (special [("syscall", 0x0C); ("break", 0x0D)]) ++
  group cpus [[]] [("nop", 0); ("sync", 0x0F)] ++
  (* immediates *)
  group cpus [args [t_; s_; i16_]; args [Reg Gpr (RS ++ RT); i16_]]
    (op (from 0x08 ["addi"; "addiu"; "slti"; "sltiu"; "andi"; "ori"; "xori"] ++
         [("subi", 0x08); ("subiu", 0x09); ("daddi", 0x18); ("dsubi", 0x18); ("daddiu", 0x19); ("dsubiu", 0x19)])) ++
  group cpus [args [t_; i16_]] (op [("lui", 0x0F)]) ++
  (* jumps and branches *)
  group cpus [[Imm (fld 0 26)]] (op [("j", 2); ("jal", 3)]) ++
  group cpus [args [s_; t_; i16_]] (op [("beq", 4); ("bne", 5); ("beql", 0x14); ("bnel", 0x15)]) ++
  group cpus [args [s_; i16_]]
    (op [("beqz", 4); ("bnez", 5); ("blez", 6); ("bgtz", 7);
         ("beqzl", 0x14); ("bnezl", 0x15); ("blezl", 0x16); ("bgtzl", 0x17)] ++
     regimm (from 0x00 ["bltz"; "bgez"; "bltzl"; "bgezl"] ++
             from 0x08 ["tgei"; "tgeiu"; "tlti"; "tltiu"; "teqi"] ++ [("tnei", 0x0E)] ++
             from 0x10 ["bltzal"; "bgezal"; "bltzall"; "bgezall"] ++ [("mtsab", 0x18); ("mtsah", 0x19)])) ++
  group cpus [[i16_]] (op [("b", 4)] ++ regimm [("bal", 0x11)]) ++
  (* loads and stores *)
  group cpus (memory t_ i16_)
    (op (from 0x1A ["ldl"; "ldr"] ++ [("lq", 0x1E); ("sq", 0x1F)] ++
         from 0x20 ["lb"; "lh"; "lwl"; "lw"; "lbu"; "lhu"; "lwr"; "lwu";
                    "sb"; "sh"; "swl"; "sw"; "sdl"; "sdr"; "swr"] ++
         [("ll", 0x30); ("lld", 0x34); ("ld", 0x37); ("sc", 0x38); ("scd", 0x3C); ("sd", 0x3F)])) ++
  group cpus (memory ft_ i16_)
    (op [("lwc1", 0x31); ("l.s", 0x31); ("ldc1", 0x35); ("l.d", 0x35);
         ("swc1", 0x39); ("s.s", 0x39); ("sdc1", 0x3D); ("s.d", 0x3D)]) ++
  group cpus (memory (Code RT) i16_) (op [("cache", 0x2F)]) ++
  group [PSX] (memory (Reg GteData RT) i16_) (op [("lwc2", 0x32); ("swc2", 0x3A)]) ++
  group [PS2] (memory (Reg Vf RT) i16_) (op [("lqc2", 0x36); ("sqc2", 0x3E)]) ++
  (* coprocessor 0 *)
  group [PSX; N64; PS2; PSP] [args [t_; Reg Cp0 RD]] (cop0 [("mfc0", 0); ("dmfc0", 1); ("mtc0", 4); ("dmtc0", 5)]) ++
  group [RSP] [args [t_; Reg SpCp0 RD]] (cop0 [("mfc0", 0); ("mtc0", 4)]) ++
  group cpus [[]] (cop0_co [("tlbr", 1); ("tlbwi", 2); ("tlbwr", 6); ("tlbp", 8); ("rfe", 16); ("eret", 24)]) ++
  (* the coprocessor 2 of the PSX *)
  group [PSX] [[Imm (fld 0 25)]] [("cop2", 18 * 2 ^ 26 + 2 ^ 25)] ++
  group [PSX] [args [t_; Reg GteData RD]] (cop2 [("mfc2", 0); ("mtc2", 4)]) ++
  group [PSX] [args [t_; Reg GteCtrl RD]] (cop2 [("cfc2", 2); ("ctc2", 6)]) ++
  (* bit fields and byte order *)
  group [PSP] [args [t_; s_; sa_; Size RD]] [("ext", 31 * 2 ^ 26)] ++
  group [PSP] [args [t_; s_; sa_; Msb RD]] [("ins", 31 * 2 ^ 26 + 4)] ++
  group [PSP] [args [d_; t_]; [Reg Gpr (RD ++ RT)]]
    (at_ 6 (31 * 2 ^ 26 + 32) [("wsbh", 2); ("wsbw", 3); ("seb", 16); ("bitrev", 20); ("seh", 24)]).

(** Floating point. *)
Definition fpu_conditions (suffix : string) (code : Z) : list (string * Z) :=
  map (fun c => (("c." ++ fst c ++ suffix)%string, snd c))
      (from code ["f"; "un"; "eq"; "ueq"; "olt"; "ult"; "ole"; "ule"; "sf"; "ngle"; "seq"; "ngl"; "lt"; "nge"; "le"; "ngt"]).
Definition fpu : list instruction :=
  group cpus [args [t_; fs_]] (cop1 [("mfc1", 0); ("dmfc1", 1); ("mtc1", 4); ("dmtc1", 5)]) ++
  group cpus [args [t_; Reg Fcr FS]] (cop1 [("cfc1", 2); ("ctc1", 6)]) ++
  group cpus [[i16_]] (cop1_bc (from 0 ["bc1f"; "bc1t"; "bc1fl"; "bc1tl"])) ++
  group cpus [args [fd_; fs_; ft_]; args [Reg Fpr (FS ++ FD); ft_]]
    (cop1_fmt 16 (from 0 ["add.s"; "sub.s"; "mul.s"; "div.s"]) ++ cop1_fmt 17 (from 0 ["add.d"; "sub.d"; "mul.d"; "div.d"])) ++
  group [PSX; N64; PSP; RSP] [args [fd_; fs_]] (cop1_fmt 16 [("sqrt.s", 4)]) ++
  (* the square root of the R5900 takes its operand from ft *)
  group [PS2] [args [fd_; ft_]] (cop1_fmt 16 [("sqrt.s", 4)]) ++
  group [PS2] [args [fd_; fs_; ft_]] (cop1_fmt 16 [("rsqrt.s", 0x16)]) ++
  group cpus [args [fd_; fs_]]
    (cop1_fmt 16 (from 5 ["abs.s"; "mov.s"; "neg.s"; "round.l.s"; "trunc.l.s"; "ceil.l.s"; "floor.l.s";
                          "round.w.s"; "trunc.w.s"; "ceil.w.s"; "floor.w.s"] ++
                  [("cvt.d.s", 0x21); ("cvt.w.s", 0x24); ("cvt.l.s", 0x25)]) ++
     cop1_fmt 17 (from 4 ["sqrt.d"; "abs.d"; "mov.d"; "neg.d"; "round.l.d"; "trunc.l.d"; "ceil.l.d"; "floor.l.d";
                          "round.w.d"; "trunc.w.d"; "ceil.w.d"; "floor.w.d"] ++
                  [("cvt.s.d", 0x20); ("cvt.w.d", 0x24); ("cvt.l.d", 0x25)]) ++
     cop1_fmt 20 [("cvt.s.w", 0x20); ("cvt.d.w", 0x21)] ++
     cop1_fmt 21 [("cvt.s.l", 0x20); ("cvt.d.l", 0x21)]) ++
  group [PSX; N64; PSP; RSP] [args [fs_; ft_]] (cop1_fmt 16 (fpu_conditions ".s" 0x30)) ++
  group cpus [args [fs_; ft_]] (cop1_fmt 17 (fpu_conditions ".d" 0x30)) ++
  (* the R5900: four conditions, an accumulator, minimum and maximum *)
  group [PS2] [args [fs_; ft_]]
    (cop1_fmt 16 [("c.f.s", 0x30); ("c.eq.s", 0x32); ("c.lt.s", 0x34); ("c.le.s", 0x36);
                  ("adda.s", 0x18); ("suba.s", 0x19); ("mula.s", 0x1A); ("madda.s", 0x1E); ("msuba.s", 0x1F)]) ++
  group [PS2] [args [fd_; fs_; ft_]; args [Reg Fpr (FS ++ FD); ft_]] (cop1_fmt 16 [("madd.s", 0x1C); ("msub.s", 0x1D)]) ++
  group [PS2] [args [fd_; fs_; ft_]] (cop1_fmt 16 [("max.s", 0x28); ("min.s", 0x29)]).

(** The VFPU of the PSP.  The suffix sets bits 7 and 15. *)
Definition vd := fld 0 7.
Definition vs := fld 8 7.
Definition vt := fld 16 7.
Definition suffixes : list (string * Z) := [(".s", 0); (".p", 2 ^ 7); (".t", 2 ^ 15); (".q", 2 ^ 15 + 2 ^ 7)].
Definition with_suffixes (l : list (string * Z)) (c : string * Z) : list (string * Z) :=
  map (fun x => ((fst c ++ fst x)%string, snd c + snd x)) l.
Definition sized := flat_map (with_suffixes suffixes).
Definition sized_not_s := flat_map (with_suffixes (tl suffixes)).
Definition vfpu (o f : Z) : Z := o * 2 ^ 26 + f * 2 ^ 23.
Definition vfpu4 (r : Z) := at_ 16 (52 * 2 ^ 26 + r * 2 ^ 21).
(** The register of a load or store: five bits at 16, the rest at 0. *)
Definition vmem (n : Z) : list slice := [mkSlice 0 n 5; mkSlice 16 5 0].
Definition moff := Imm [mkSlice 2 14 2].
Definition cc_names (c : string * Z) : list (string * Z) :=
  map (fun x => ((fst c ++ "." ++ fst x)%string, snd c + snd x * 2 ^ 18)) vfpu_cc.

Definition psp_vfpu : list instruction :=
  group [PSP] [args [Vec Same vd; Vec Same vs; Vec Same vt]]
    (sized [("vadd", vfpu 24 0); ("vsub", vfpu 24 1); ("vdiv", vfpu 24 7); ("vmul", vfpu 25 0);
            ("vmin", vfpu 27 2); ("vmax", vfpu 27 3); ("vscmp", vfpu 27 5); ("vsge", vfpu 27 6); ("vslt", vfpu 27 7)] ++
     [("vsbn.s", vfpu 24 2); ("vcrs.t", vfpu 25 5 + 2 ^ 15); ("vcrsp.t", vfpu 60 5 + 2 ^ 15);
      ("vqmul.q", vfpu 60 5 + 2 ^ 15 + 2 ^ 7)]) ++
  group [PSP] [args [Vec One vd; Vec Same vs; Vec Same vt]]
    (sized_not_s [("vdot", vfpu 25 1); ("vhdp", vfpu 25 4)] ++ [("vdet.p", vfpu 25 6 + 2 ^ 7)]) ++
  group [PSP] [args [Vec Same vd; Vec Same vs; Vec One vt]] (sized_not_s [("vscl", vfpu 25 2)]) ++
  group [PSP] [args [Cond (fld 0 4); Vec Same vs; Vec Same vt]] (sized [("vcmp", vfpu 27 0)]) ++
  group [PSP] [args [Vec Same vd; Arg WCst (fld 16 5)]] (sized (vfpu4 3 [("vcst", 0)])) ++
  group [PSP] [args [Vec Same vd; Vec Same vs; Imm (fld 16 5)]]
    (sized (at_ 21 (52 * 2 ^ 26) (from 0x10 ["vf2in"; "vf2iz"; "vf2iu"; "vf2id"; "vi2f"] ++ [("vwbn", 0x18)]))) ++
  (* a conditional move names one of six condition bits; bit 19 is the wanted value inverted *)
  group [PSP] [args [Vec Same vd; Vec Same vs; Imm (fld 16 3)]]
    (sized (at_ 19 (52 * 2 ^ 26 + 0x15 * 2 ^ 21) [("vcmovt", 0); ("vcmovf", 1)])) ++
  group [PSP] [args [Vec Same vd; Vec Same vs]]
    (sized (vfpu4 0 (from 0 ["vmov"; "vabs"; "vneg"] ++ from 4 ["vsat0"; "vsat1"] ++
                     from 0x10 ["vrcp"; "vrsq"; "vsin"; "vcos"; "vexp2"; "vlog2"; "vsqrt"; "vasin"; "vnrcp"] ++
                     [("vnsin", 0x1A); ("vrexp2", 0x1C)]) ++
            vfpu4 1 [("vlgb", 0x17)] ++
            vfpu4 2 (from 0 ["vsrt1"; "vsrt2"; "vbfy1"; "vbfy2"; "vocp"; "vsocp"] ++ from 8 ["vsrt3"; "vsrt4"; "vsgn"]))) ++
  group [PSP] [[Vec Same vd]]
    (sized (vfpu4 0 [("vidt", 3); ("vzero", 6); ("vone", 7)] ++ vfpu4 1 (from 0 ["vrnds"; "vrndi"; "vrndf1"; "vrndf2"]))) ++
  group [PSP] [args [Vec Half vd; Vec Same vs]]
    (sized (vfpu4 1 [("vf2h", 0x12); ("vi2us", 0x1E); ("vi2s", 0x1F)] ++
            vfpu4 2 (from 0x19 ["vt4444"; "vt5551"; "vt5650"]))) ++
  group [PSP] [args [Vec Twice vd; Vec Same vs]] (sized (vfpu4 1 [("vh2f", 0x13); ("vus2i", 0x1A); ("vs2i", 0x1B)])) ++
  group [PSP] [args [Vec Fourfold vd; Vec Same vs]] (sized (vfpu4 1 [("vuc2ifs", 0x18); ("vc2i", 0x19)])) ++
  group [PSP] [args [Vec Quarter vd; Vec Same vs]] (sized (vfpu4 1 [("vi2uc", 0x1C); ("vi2c", 0x1D)])) ++
  group [PSP] [args [Vec One vd; Vec Same vs]] (sized_not_s (vfpu4 2 [("vfad", 6); ("vavg", 7)])) ++
  group [PSP] [args [Vec Same vs; Imm vd]] (sized (vfpu4 2 [("vmfv", 0x10); ("vmtv", 0x11)])) ++
  group [PSP] [args [Vec Same vs; Imm vd]]
    (flat_map (with_suffixes [(".s", 2 ^ 7); (".p", 2 ^ 7); (".t", 2 ^ 15 + 2 ^ 7); (".q", 2 ^ 15 + 2 ^ 7)])
              (vfpu4 2 [("vmfvc", 0x10); ("vmtvc", 0x11)])) ++
  group [PSP] [[Arg WPfxs (fld 0 20)]] [("vpfxs", vfpu 55 0); ("vpfxt", vfpu 55 2)] ++
  group [PSP] [[Arg WPfxd (fld 0 16)]] [("vpfxd", vfpu 55 4)] ++
  group [PSP] [args [Vec Same vt; i16_]] [("viim.s", vfpu 55 6)] ++
  group [PSP] [args [Vec Same vt; HalfFloat (fld 0 16)]] [("vfim.s", vfpu 55 7)] ++
  (* matrices; a product takes its first factor transposed *)
  group [PSP] [args [Mat vd; MatT vs; Mat vt]] (sized [("vmmul", vfpu 60 0)]) ++
  group [PSP] [args [Vec Same vd; Mat vs; Vec Same vt]]
    [("vtfm2.p", vfpu 60 1 + 2 ^ 7); ("vhtfm2.p", vfpu 60 2 + 2 ^ 7); ("vtfm3.t", vfpu 60 2 + 2 ^ 15);
     ("vhtfm3.t", vfpu 60 3 + 2 ^ 15); ("vtfm4.q", vfpu 60 3 + 2 ^ 15 + 2 ^ 7)] ++
  group [PSP] [args [Mat vd; Mat vs; Vec One vt]] (sized [("vmscl", vfpu 60 4)]) ++
  group [PSP] [args [Vec Same vd; Vec One vs; Arg WRot (fld 16 5)]] (sized [("vrot", vfpu 60 7 + 1 * 2 ^ 21)]) ++
  group [PSP] [args [Mat vd; Mat vs]] (sized [("vmmov", vfpu 60 7)]) ++
  group [PSP] [[Mat vd]] (sized (at_ 16 (vfpu 60 7) [("vmidt", 3); ("vmzero", 6); ("vmone", 7)])) ++
  (* transfers *)
  group [PSP] [args [t_; Vec One vd]] (cop2 [("mfv", 3); ("mtv", 7)]) ++
  group [PSP] [args [t_; Ctl vd]] (at_ 21 (18 * 2 ^ 26 + 2 ^ 7) [("mfvc", 3); ("mtvc", 7)]) ++
  group [PSP] (memory (Vec One (vmem 2)) moff) (op [("lv.s", 0x32); ("sv.s", 0x3A)]) ++
  group [PSP] (memory (Vec Same (vmem 2)) moff) (op [("ulv.q", 0x35); ("usv.q", 0x3D)]) ++
  group [PSP] (memory (Vec6 (vmem 1)) moff)
    (op [("lvl.q", 0x35); ("svl.q", 0x3D); ("lv.q", 0x36); ("sv.q", 0x3E)] ++ at_ 26 2 [("lvr.q", 0x35); ("svr.q", 0x3D)]) ++
  group [PSP] (map (fun f => f ++ [Punct ","; Wb]) (memory (Vec6 (vmem 1)) moff)) (at_ 26 2 [("sv.q", 0x3E)]) ++
  (* branches on a condition bit *)
  group [PSP] [args [Cc (fld 18 3); i16_]] (at_ 16 (18 * 2 ^ 26 + 8 * 2 ^ 21) (from 0 ["bvf"; "bvt"; "bvfl"; "bvtl"])) ++
  group [PSP] [[i16_]]
    (flat_map cc_names (at_ 16 (18 * 2 ^ 26 + 8 * 2 ^ 21) (from 0 ["bvf"; "bvt"; "bvfl"; "bvtl"]))).

(** The vector unit of the RSP. *)
Definition spv (f : list slice) := Reg SpV f.
Definition rsp : list instruction :=
  group [RSP] [[spv FD; Punct ","; spv FS; Punct ","; spv FT; Elem (fld 21 4)];
               [spv (FS ++ FD); Punct ","; spv FT; Elem (fld 21 4)]]
    (at_ 0 (18 * 2 ^ 26 + 2 ^ 25)
       (from 0x00 ["vmulf"; "vmulu"; "vrndp"; "vmulq"; "vmudl"; "vmudm"; "vmudn"; "vmudh";
                   "vmacf"; "vmacu"; "vrndn"; "vmacq"; "vmadl"; "vmadm"; "vmadn"; "vmadh";
                   "vadd"; "vsub"; "vsut"; "vabs"; "vaddc"; "vsubc"; "vaddb"; "vsubb";
                   "vaccb"; "vsucb"; "vsad"; "vsac"; "vsum"; "vsar"; "vacc"; "vsuc";
                   "vlt"; "veq"; "vne"; "vge"; "vcl"; "vch"; "vcr"; "vmrg";
                   "vand"; "vnand"; "vor"; "vnor"; "vxor"; "vnxor"] ++
        from 0x38 ["vextt"; "vextq"; "vextn"] ++ from 0x3C ["vinst"; "vinsq"; "vinsn"])) ++
  group [RSP] [[spv FD; Scalar (fld 11 4); Punct ","; spv FT; Scalar (fld 21 4)]]
    (at_ 0 (18 * 2 ^ 26 + 2 ^ 25) (from 0x30 ["vrcp"; "vrcpl"; "vrcph"; "vmov"; "vrsq"; "vrsql"; "vrsqh"])) ++
  group [RSP] [[]] (at_ 0 (18 * 2 ^ 26 + 2 ^ 25) [("vnop", 0x37); ("vnull", 0x3F)]) ++
  group [RSP] [[t_; Punct ","; spv FS; Offset (fld 7 4)]] (cop2 [("mfc2", 0); ("mtc2", 4)]) ++
  group [RSP] [args [t_; Reg SpVc RD]] (cop2 [("cfc2", 2); ("ctc2", 6)]) ++
  group [RSP] [[spv FT; Offset (fld 7 4); Punct ","; Imm (fld 0 7)] ++ brackets s_;
               [spv FT; Offset (fld 7 4); Punct ","] ++ brackets s_]
    (at_ 11 (50 * 2 ^ 26) (from 0 ["lbv"; "lsv"; "llv"; "ldv"; "lqv"; "lrv"; "lpv"; "luv"; "lhv"; "lfv"] ++ [("ltv", 11)]) ++
     at_ 11 (58 * 2 ^ 26) (from 0 ["sbv"; "ssv"; "slv"; "sdv"; "sqv"; "srv"; "spv"; "suv"; "shv"; "sfv"; "swv"; "stv"])).

Definition isa : list instruction := core ++ fpu ++ psp_vfpu ++ rsp.

(** ** What a word says *)

Definition arch_eqb (a b : mips_arch) : bool :=
  match a, b with PSX, PSX | N64, N64 | PS2, PS2 | PSP, PSP | RSP, RSP => true | _, _ => false end.
(** The word holds [v] in the field. *)
Definition holds (w : Z) (x : slice * Z) : Prop :=
  bits w (f_pos (fst x)) (f_len (fst x)) = bits (snd x) (f_skip (fst x)) (f_len (fst x)).
Definition inside (k : Z) (f : slice) : Prop := f_pos f <= k < f_pos f + f_len f.

(** [w] is the instruction [name] with the operands [ps] at address [pc]: the operands have one of the
    forms of the instruction, each of its fields holds its operand, and all other bits are the fixed
    bits of the instruction. *)
Definition encodes (a : mips_arch) (pc : Z) (name : string) (ps : list piece) (w : Z) : Prop :=
  exists ins form vals,
    In ins isa /\ n_name ins = name /\ In a (n_on ins) /\ In form (n_forms ins) /\
    read_items name pc 0 form ps = Some vals /\
    0 <= w < 2 ^ 32 /\
    Forall (holds w) vals /\
    forall k, 0 <= k < 32 -> (forall x, In x vals -> ~ inside k (fst x)) -> Z.testbit w k = Z.testbit (n_base ins) k.

(** Operands for which the encoder does not do that. *)
Definition one_operand (ps : list piece) : bool := match ps with [_] => true | _ => false end.
Definition ins_fits (ps : list piece) : bool :=
  match ps with
  | [_; _; _; _; p; _; q] => match integer p, integer q with
                             | Some pos, Some size => (0 <=? pos) && (1 <=? size) && (pos + size <=? 32)
                             | _, _ => false
                             end
  | _ => false
  end.
Definition irregular (a : mips_arch) (name : string) (ps : list piece) : bool :=
  (String.eqb name "ins" && negb (ins_fits ps)) ||
  (mem name ["wsbh"; "wsbw"; "seb"; "bitrev"; "seh"]%string && one_operand ps) ||
  mem (stem name) ["vcmovt"; "vcmovf"]%string ||
  (arch_eqb a PS2 && mem name ["sqrt.s"; "rsqrt.w.s"]%string).

(** The operand that is an immediate: before the base register of a load or store, else the last. *)
Definition immediate_operand (ps : list piece) : piece :=
  match ps with
  | [_; _; p; PSym "("; _; PSym ")"] => p
  | _ => last ps (PSym ",")
  end.
(** The processor with the vector unit that [MipsCpu.immediate_kind] asks for. *)
Definition vfpu_unit (a : mips_arch) : bool := match a with PSP => true | _ => false end.

(** Instructions of the PSP that the table of the assembler does not keep apart: the register number
    of vmfvc and vmtvc reaches into the bit for the size, and ulv.q and usv.q take registers whose
    number has the bit that makes them lvl, lvr, svl or svr. *)
Definition vfpu_clashes : list (list string) :=
  [["vmfv.p"; "vmfvc.s"; "vmfvc.p"]; ["vmfv.q"; "vmfvc.t"; "vmfvc.q"]; ["vmtv.p"; "vmtvc.s"; "vmtvc.p"];
   ["vmtv.q"; "vmtvc.t"; "vmtvc.q"]; ["ulv.q"; "lvl.q"]; ["ulv.q"; "lvr.q"]; ["usv.q"; "svl.q"]; ["usv.q"; "svr.q"]]%string.
