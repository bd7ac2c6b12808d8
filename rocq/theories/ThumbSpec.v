(** What Thumb instructions mean: a decoder written from the instruction set description, and the
    instruction that each source form denotes. *)

Require Import ZArith Bool List String Ascii.
Require Import Verif.Ints.
Import ListNotations.
Local Open Scope Z_scope.

(** Numbers of operations are those of the instruction set: shifts lsl, lsr, asr; immediate
    operations mov, cmp, add, sub; register offset accesses str, strh, strb, ldrsb, ldr, ldrh, ldrb, ldrsh. *)
Inductive tinstr :=
| TShift (op rd rs amount : Z)
| TAddReg (sub : bool) (rd rs rn : Z)
| TAddImm (sub : bool) (rd rs imm : Z)
| TImm (op rd imm : Z)
| TAlu (op rd rs : Z)
| THi (op rd rs : Z)                 (* add, cmp, mov *)
| TBx (link : bool) (rs : Z)
| TLoadPc (rd offset : Z)            (* from the word aligned pc *)
| TMemReg (op rd rb ro : Z)
| TMemImm (load : bool) (size rd rb offset : Z)
| TMemSp (load : bool) (rd offset : Z)
| TAddPc (rd offset : Z)
| TAddSpTo (rd offset : Z)
| TAdjustSp (offset : Z)
| TPush (list : Z) (lr : bool)
| TPop (list : Z) (pc : bool)
| TStore (rb list : Z)
| TLoad (rb list : Z)
| TBranchIf (cond offset : Z)        (* from the address plus 4 *)
| TSwi (n : Z)
| TBkpt (n : Z)
| TBranch (offset : Z)
| TLongHigh (high : Z)
| TLongLow (low : Z)
| TLongLowX (low : Z).

Definition flag (w n : Z) : bool := bits w n 1 =? 1.
Definition sext (w len : Z) : Z := let x := bits w 0 len in if x <? 2 ^ (len - 1) then x else x - 2 ^ len.

(** One halfword. *)
Definition thumb_decode (w : Z) : option tinstr :=
  let rd := bits w 0 3 in
  let rs := bits w 3 3 in
  let rd8 := bits w 8 3 in
  let imm8 := bits w 0 8 in
  let imm5 := bits w 6 5 in
  match bits w 13 3 with
  | 0 => if bits w 11 2 =? 3 then
           Some (if flag w 10 then TAddImm (flag w 9) rd rs (bits w 6 3) else TAddReg (flag w 9) rd rs (bits w 6 3))
         else Some (TShift (bits w 11 2) rd rs (if (imm5 =? 0) && negb (bits w 11 2 =? 0) then 32 else imm5))
  | 1 => Some (TImm (bits w 11 2) rd8 imm8)
  | 2 => match bits w 10 3 with
         | 0 => Some (TAlu (bits w 6 4) rd rs)
         | 1 => let rd' := rd + (if flag w 7 then 8 else 0) in
                let rs' := rs + (if flag w 6 then 8 else 0) in
                if bits w 8 2 =? 3 then if rd =? 0 then Some (TBx (flag w 7) rs') else None
                else Some (THi (bits w 8 2) rd' rs')
         | 2 | 3 => Some (TLoadPc rd8 (imm8 * 4))
         | _ => Some (TMemReg (bits w 9 3) rd rs (bits w 6 3))
         end
  | 3 => Some (if flag w 12 then TMemImm (flag w 11) 1 rd rs imm5 else TMemImm (flag w 11) 4 rd rs (imm5 * 4))
  | 4 => Some (if flag w 12 then TMemSp (flag w 11) rd8 (imm8 * 4) else TMemImm (flag w 11) 2 rd rs (imm5 * 2))
  | 5 => if flag w 12 then
           match bits w 8 4 with
           | 0 => Some (TAdjustSp (if flag w 7 then - (bits w 0 7 * 4) else bits w 0 7 * 4))
           | 4 => Some (TPush imm8 false)
           | 5 => Some (TPush imm8 true)
           | 12 => Some (TPop imm8 false)
           | 13 => Some (TPop imm8 true)
           | 14 => Some (TBkpt imm8)
           | _ => None
           end
         else Some (if flag w 11 then TAddSpTo rd8 (imm8 * 4) else TAddPc rd8 (imm8 * 4))
  | 6 => if flag w 12 then
           if bits w 8 4 =? 15 then Some (TSwi imm8)
           else if bits w 8 4 =? 14 then None
           else Some (TBranchIf (bits w 8 4) (sext w 8 * 2))
         else Some (if flag w 11 then TLoad rd8 imm8 else TStore rd8 imm8)
  | _ => match bits w 11 2 with
         | 0 => Some (TBranch (sext w 11 * 2))
         | 1 => Some (TLongLowX (bits w 0 11))
         | 2 => Some (TLongHigh (sext w 11))
         | _ => Some (TLongLow (bits w 0 11))
         end
  end.

(** Where a branch at [address] goes.  A long branch has two halves; the high one puts the
    sign-extended high part into lr, the low one adds its part.  [blx] clears the low two bits. *)
Definition thumb_target (address : Z) (ws : list Z) : option Z :=
  match ws with
  | [w] =>
      match thumb_decode w with
      | Some (TBranchIf _ o) | Some (TBranch o) => Some (u32 (address + 4 + o))
      | _ => None
      end
  | [w1; w2] =>
      match thumb_decode w1, thumb_decode w2 with
      | Some (TLongHigh h), Some (TLongLow l) => Some (u32 (address + 4 + h * 4096 + l * 2))
      | Some (TLongHigh h), Some (TLongLowX l) =>
          if l mod 2 =? 0 then Some (u32 ((address + 4 + h * 4096 + l * 2) / 4 * 4)) else None
      | _, _ => None
      end
  | _ => None
  end.

(** What a branch does besides: the condition, a plain jump, a call, a call with change of state. *)
Inductive tkind := KIf (cond : Z) | KJump | KCall | KCallX.
Definition thumb_kind (ws : list Z) : option tkind :=
  match ws with
  | [w] =>
      match thumb_decode w with Some (TBranchIf c _) => Some (KIf c) | Some (TBranch _) => Some KJump | _ => None end
  | [w1; w2] =>
      match thumb_decode w1, thumb_decode w2 with
      | Some (TLongHigh _), Some (TLongLow _) => Some KCall
      | Some (TLongHigh _), Some (TLongLowX _) => Some KCallX
      | _, _ => None
      end
  | _ => None
  end.

(** ** Source forms *)
(** An operand list as written: registers and a register list. *)
Record toperands := mkTOp { td : Z; ts : Z; tn : Z; to : Z; tlist : Z }.

Inductive tform :=
| FShift (op : Z) (two : bool)       (* two: the source is the destination *)
| FAddReg (sub two : bool)
| FAddImm (sub : bool)
| FMov
| FImm (op : Z)
| FAlu (op : Z)
| FHi (op : Z)
| FNop
| FBx (link : bool)
| FLoadPc0 | FLoadPc | FLoadAddress | FLoadPool
| FMemReg (op : Z)
| FMemImm (load : bool) (size : Z) | FMemImm0 (load : bool) (size : Z)
| FMemSp (load : bool) | FMemSp0 (load : bool)
| FAddPc | FAddress | FAddSp
| FAdjust (sub : bool)
| FPush | FPop | FStore | FLoad
| FBranchIf (cond : Z)
| FSwi | FBkpt
| FBranch
| FLow0 | FLow
| FLong | FLongX.

Local Open Scope string_scope.
Definition one_of (s : string) (l : list (string * Z)) : option Z :=
  option_map snd (find (fun p => fst p =? s) l).
Definition alu_number (s : string) : option Z :=
  one_of s [("and", 0); ("eor", 1); ("xor", 1); ("lsl", 2); ("lsr", 3); ("asr", 4); ("adc", 5); ("sbc", 6); ("ror", 7);
            ("tst", 8); ("neg", 9); ("cmp", 10); ("cmn", 11); ("orr", 12); ("mul", 13); ("bic", 14); ("mvn", 15)]%Z.
Definition cond_number (s : string) : option Z :=
  one_of s [("beq", 0); ("bne", 1); ("bcs", 2); ("bhs", 2); ("bcc", 3); ("blo", 3); ("bmi", 4); ("bpl", 5); ("bvs", 6);
            ("bvc", 7); ("bhi", 8); ("bls", 9); ("bge", 10); ("blt", 11); ("bgt", 12); ("ble", 13)]%Z.
Definition shift_number (s : string) : option Z := one_of s [("lsl", 0); ("asl", 0); ("lsr", 1); ("asr", 2)]%Z.
Definition imm_number (s : string) : option Z := one_of s [("mov", 0); ("cmp", 1); ("add", 2); ("sub", 3)]%Z.
Definition hi_number (s : string) : option Z := one_of s [("add", 0); ("cmp", 1); ("mov", 2)]%Z.
Definition mem_number (s : string) : option Z :=
  one_of s [("str", 0); ("strh", 1); ("strb", 2); ("ldrsb", 3); ("ldsb", 3); ("ldr", 4); ("ldrh", 5); ("ldrb", 6); ("ldrsh", 7); ("ldsh", 7)]%Z.
Definition access (s : string) : option (bool * Z) :=
  option_map snd (find (fun p => fst p =? s) [("str", (false, 4)); ("ldr", (true, 4)); ("strb", (false, 1)); ("ldrb", (true, 1));
     ("strh", (false, 2)); ("ldrh", (true, 2))]%Z).
Definition on {A} (o : option A) (f : A -> tform) : option tform := option_map f o.
Definition add_or_sub (s : string) : option bool := if s =? "add" then Some false else if s =? "sub" then Some true else None.

(** Operand lists with the numbers of bits taken out: a letter per operand, [#] for a number. *)
Fixpoint shape (m : string) : string :=
  match m with
  | String "/" m => shape m
  | String "i" (String _ m) | String "I" (String _ m) => shape m
  | String "r" (String c m) => String "r" (String (ascii_of_nat (nat_of_ascii c + 48)) (shape m))
  | String "R" (String _ (String _ m)) => String "R" (shape m)
  | String c m => String c (shape m)
  | EmptyString => EmptyString
  end.

(** Registers 13, 14 and 15 appear as [r=], [r>] and [r?]. *)
Definition thumb_form (name mask : string) : option tform :=
  let s := shape mask in
  if s =? "d,s,#" then
    match shift_number name with Some op => Some (FShift op false) | None => on (add_or_sub name) FAddImm end
  else if s =? "d,#" then
    match shift_number name with Some op => Some (FShift op true) | None => on (imm_number name) FImm end
  else if s =? "d,s,n" then on (add_or_sub name) (fun b => FAddReg b false)
  else if s =? "d,n" then on (add_or_sub name) (fun b => FAddReg b true)
  else if s =? "d,s" then if name =? "mov" then Some FMov else on (alu_number name) FAlu
  else if s =? "D,S" then on (hi_number name) FHi
  else if s =? "S" then if name =? "bx" then Some (FBx false) else if name =? "blx" then Some (FBx true) else None
  else if s =? "" then if name =? "nop" then Some FNop else None
  else if s =? "d,[r?]" then if name =? "ldr" then Some FLoadPc0 else None
  else if s =? "d,[r?,#]" then if name =? "ldr" then Some FLoadPc else None
  else if s =? "d,[#]" then if name =? "ldr" then Some FLoadAddress else None
  else if s =? "d,=#" then if name =? "ldr" then Some FLoadPool else if name =? "add" then Some FAddress else None
  else if s =? "d,[s,o]" then on (mem_number name) FMemReg
  else if s =? "d,[s,#]" then on (access name) (fun a => FMemImm (fst a) (snd a))
  else if s =? "d,[s]" then on (access name) (fun a => FMemImm0 (fst a) (snd a))
  else if s =? "d,[r=,#]" then if name =? "str" then Some (FMemSp false) else if name =? "ldr" then Some (FMemSp true) else None
  else if s =? "d,[r=]" then if name =? "str" then Some (FMemSp0 false) else if name =? "ldr" then Some (FMemSp0 true) else None
  else if s =? "d,r?,#" then if name =? "add" then Some FAddPc else None
  else if s =? "d,r=,#" then if name =? "add" then Some FAddSp else None
  else if s =? "r=,#" then on (add_or_sub name) FAdjust
  else if s =? "r=,r=,#" then on (add_or_sub name) FAdjust
  else if s =? "{R}" then if name =? "push" then Some FPush else if name =? "pop" then Some FPop else None
  else if s =? "[d]!,{R}" then if name =? "stmia" then Some FStore else if name =? "ldmia" then Some FLoad else None
  else if s =? "r>" then if name =? "bl" then Some FLow0 else None
  else if s =? "r>+#" then if name =? "bl" then Some FLow else None
  else if s =? "#" then
    match cond_number name with
    | Some c => Some (FBranchIf c)
    | None =>
        if name =? "swi" then Some FSwi else if name =? "bkpt" then Some FBkpt else if name =? "b" then Some FBranch
        else if name =? "blh" then Some FLow else if name =? "bl" then Some FLong else if name =? "blx" then Some FLongX else None
    end
  else None.
Local Close Scope string_scope.

(** The instruction a form denotes for operands, a value [v] and an address [a]; for a literal
    pool load [v] is the address of the entry.  [None]: there is none.  An addition of a negative
    number is a subtraction; shifts by zero are all [lsl]. *)
Definition between (lo v hi : Z) (step : Z) : bool := (lo <=? v) && (v <=? hi) && (v mod step =? 0).
Definition when {A} (b : bool) (x : A) : option A := if b then Some x else None.
Definition aligned_pc (a : Z) : Z := u32 (a + 4) / 4 * 4.
Definition thumb_meaning (f : tform) (o : toperands) (v a : Z) : option tinstr :=
  match f with
  | FShift op two =>
      when (between 0 v (if op =? 0 then 31 else 32) 1) (TShift (if v =? 0 then 0 else op) (td o) (if two then td o else ts o) v)
  | FAddReg sub two => Some (TAddReg sub (td o) (if two then td o else ts o) (tn o))
  | FAddImm sub => when (between (-7) v 7 1) (TAddImm (xorb sub (v <? 0)) (td o) (ts o) (Z.abs v))
  | FMov => Some (TAddImm false (td o) (ts o) 0)
  | FImm op =>
      if 2 <=? op then when (between (-255) v 255 1) (TImm (if v <? 0 then 5 - op else op) (td o) (Z.abs v))
      else when (between 0 v 255 1) (TImm op (td o) v)
  | FAlu op => Some (TAlu op (td o) (ts o))
  | FHi op => Some (THi op (td o) (ts o))
  | FNop => Some (THi 2 8 8)
  | FBx link => Some (TBx link (ts o))
  | FLoadPc0 => Some (TLoadPc (td o) 0)
  | FLoadPc => when (between 0 v 1020 4) (TLoadPc (td o) v)
  | FLoadAddress | FLoadPool => let d := s32 (v - aligned_pc a) in when (between 0 d 1020 4) (TLoadPc (td o) d)
  | FMemReg op => Some (TMemReg op (td o) (ts o) (to o))
  | FMemImm load size => when (between 0 v (31 * size) size) (TMemImm load size (td o) (ts o) v)
  | FMemImm0 load size => Some (TMemImm load size (td o) (ts o) 0)
  | FMemSp load => when (between 0 v 1020 4) (TMemSp load (td o) v)
  | FMemSp0 load => Some (TMemSp load (td o) 0)
  | FAddPc => when (between 0 v 1020 4) (TAddPc (td o) v)
  | FAddress => let d := s32 (v - aligned_pc a) in when (between 0 d 1020 4) (TAddPc (td o) d)
  | FAddSp => when (between 0 v 1020 4) (TAddSpTo (td o) v)
  | FAdjust sub => when (between (-508) v 508 4) (TAdjustSp (if sub then - v else v))
  | FPush => when (Z.land (tlist o) (Z.lnot 0x40FF) =? 0) (TPush (Z.land (tlist o) 0xFF) (flag (tlist o) 14))
  | FPop => when (Z.land (tlist o) (Z.lnot 0x80FF) =? 0) (TPop (Z.land (tlist o) 0xFF) (flag (tlist o) 15))
  | FStore => when (Z.land (tlist o) (Z.lnot 0xFF) =? 0) (TStore (td o) (tlist o))
  | FLoad => when (Z.land (tlist o) (Z.lnot 0xFF) =? 0) (TLoad (td o) (tlist o))
  | FSwi => when (between 0 v 255 1) (TSwi v)
  | FBkpt => when (between 0 v 255 1) (TBkpt v)
  | FLow0 => Some (TLongLow 0)
  | FLow => when (between 0 v 4094 2) (TLongLow (v / 2))
  | FBranchIf _ | FBranch | FLong | FLongX => None
  end.

(** Branches: the distances that must be accepted; an odd target never is.  [blx] counts from the
    aligned address; its farthest distance back, -0x400000, is left open. *)
Definition thumb_branch (f : tform) (v a : Z) : bool :=
  let d := s32 (v - a - 4) in
  match f with
  | FBranchIf _ => between (-256) d 254 2
  | FBranch => between (-2048) d 2046 2
  | FLong => between (-0x400000) d 0x3FFFFE 2
  | FLongX => between (-0x3FFFFC) (s32 (v - aligned_pc a)) 0x3FFFFC 4
  | _ => false
  end.
Definition branch_kind (f : tform) : option tkind :=
  match f with FBranchIf c => Some (KIf c) | FBranch => Some KJump | FLong => Some KCall | FLongX => Some KCallX | _ => None end.
Definition is_branch (f : tform) : bool :=
  match f with FBranchIf _ | FBranch | FLong | FLongX => true | _ => false end.
Definition is_list (f : tform) : bool := match f with FPush | FPop | FStore | FLoad => true | _ => false end.
Definition has_number (f : tform) : bool :=
  match f with
  | FShift _ _ | FAddImm _ | FImm _ | FLoadPc | FLoadAddress | FLoadPool | FMemImm _ _ | FMemSp _ | FAddPc | FAddress | FAddSp
  | FAdjust _ | FSwi | FBkpt | FLow | FBranchIf _ | FBranch | FLong | FLongX => true
  | _ => false
  end.
