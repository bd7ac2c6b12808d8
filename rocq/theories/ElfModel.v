(** Importing object files: placing sections and relocating them.

    Files: Core/ELF/ElfRelocator.cpp (relocateFile 291-469, relocate 471-492), Core/ELF/ElfFile.h
    (RelocationData 113-123), Archs/MIPS/MipsElfRelocator.cpp 12-77, Archs/ARM/ArmElfRelocator.cpp 12-170,
    Archs/SuperH/ShElfRelocator.cpp 12-46.

    Simplified: the object files are given in decoded form; reading the archive and the ELF structures
    (loadArArchive, ElfFile, init 99-223) is in ElfReadModel.v.  Defining the labels of the exported symbols
    (exportSymbols 225-270) is not modelled; the constructor stubs are in CtorModel.v.  The symbol table exists.  Labels are looked up by name; [None] is
    an invalid name or an undefined label.  Of the messages only whether there is one is kept.  [RUb]: an
    overflow, a division by zero or an access outside of an array. *)

Require Import ZArith Bool String List.
Require Import Verif.Ints Verif.Res.
Import ListNotations.
Local Open Scope Z_scope.

(** ** Bytes *)

(** ByteArray.h 49-60 and 77-94 on valid positions. *)
Definition compose (big : bool) (l : list Z) : Z :=
  match l with
  | [a; b; c; d] => if big then a * 16777216 + b * 65536 + c * 256 + d else d * 16777216 + c * 65536 + b * 256 + a
  | _ => 0
  end.
Definition split_word (big : bool) (w : Z) : list Z :=
  let l := [w mod 256; (w / 256) mod 256; (w / 65536) mod 256; (w / 16777216) mod 256] in
  if big then rev l else l.
(** A position is an int64_t that becomes a size_t; only -3 to -1 of the negative ones wrap around in the
    check [pos+3 >= size()]. *)
Definition getDoubleWord (big : bool) (data : list Z) (pos : Z) : res Z :=
  if (pos <? -3) || (pos + 3 >=? Z.of_nat (length data)) then ROk 4294967295
  else if pos <? 0 then RUb
  else ROk (compose big (firstn 4 (skipn (Z.to_nat pos) data))).
Definition replaceDoubleWord (big : bool) (data : list Z) (pos w : Z) : res (list Z) :=
  if (pos <? -3) || (pos + 3 >=? Z.of_nat (length data)) then ROk data
  else if pos <? 0 then RUb
  else ROk (firstn (Z.to_nat pos) data ++ split_word big w ++ skipn (Z.to_nat pos + 4) data).

(** ** Object files *)

(** Elf32_Sym (ElfTypes.h); the name is empty when st_name is 0, the type is st_info & 0xF. *)
Record esym := mkSym { sy_name : string; sy_value : Z; sy_size : Z; sy_bind : Z; sy_type : Z; sy_shndx : Z }.
(** Elf32_Rela: ElfTypes.h 265-280; loadRelocation: ElfRelocator.cpp 281-289. *)
Record erel := mkRel { r_offset : Z; r_type : Z; r_sym : Z; r_addend : Z }.
(** ElfRelocatorSection: ElfRelocator.h 42-48, with what is used of the section and its relocations. *)
Record esec := mkSec { se_index : Z; se_nobits : bool; se_size : Z; se_align : Z; se_data : list Z; se_rels : list erel }.
(** ElfRelocatorSymbol: ElfRelocator.h 50-59. *)
Record eexp := mkExp { ex_section : Z; ex_relative : Z; ex_size : Z }.
(** ElfRelocatorFile: ElfRelocator.h 61-67. *)
Record efile := mkFile { ef_big : bool; ef_sections : list esec; ef_symtab : list esym }.
(** What is used of a label: value, isData, info. *)
Record elabel := mkLabel { lb_value : Z; lb_data : bool; lb_info : Z }.

Definition STB_GLOBAL := 1.  Definition STB_WEAK := 2.  Definition STT_OBJECT := 1.  Definition STT_FUNC := 2.
Definition SHN_ABS := 0xFFF1.  Definition SHN_COMMON := 0xFFF2.

(** RelocationData: ElfFile.h 113-123. *)
Record rdata := mkData { d_offset : Z; d_base : Z; d_opcode : Z; d_addend : Z; d_type : Z; d_info : Z }.
(** RelocationAction: ElfRelocator.h 14-19. *)
Definition action : Type := Z * Z.

Inductive machine := Mips | Arm (arm9 : bool) | Sh.

(** ** MIPS *)

(** Hi16Entry: MipsElfRelocator.h. *)
Record hi16 := mkHi { h_offset : Z; h_base : Z; h_opcode : Z }.

Definition R_MIPS_32 := 2.  Definition R_MIPS_26 := 4.  Definition R_MIPS_HI16 := 5.  Definition R_MIPS_LO16 := 6.

(** processHi16Entries: MipsElfRelocator.cpp 12-33.  The sum of the halves is an int. *)
Fixpoint processHi16Entries (hs : list hi16) (lo base : Z) : res (list action * bool) :=
  match hs with
  | [] => ROk ([], true)
  | h :: hs =>
    if negb (h_base h =? base) then do r <- processHi16Entries hs lo base; ROk (fst r, false)
    else
      let a := s32 (Z.shiftl (Z.land (h_opcode h) 0xFFFF) 16) in
      let addend := a + s16 (Z.land lo 0xFFFF) in
      if negb (s32 addend =? addend) then RUb
      else
        let full := addend + h_base h in
        let op := Z.lor (Z.land (h_opcode h) 0xFFFF0000)
                        (Z.land (Z.shiftr full 16 + (if Z.land full 0x8000 =? 0 then 0 else 1)) 0xFFFF) in
        do r <- processHi16Entries hs lo base; ROk ((h_offset h, op) :: fst r, snd r)
  end.

(** relocateOpcode: MipsElfRelocator.cpp 35-63; the actions, the open entries, success. *)
Definition mips_relocate (type : Z) (d : rdata) (hs : list hi16) : res (list action * list hi16 * bool) :=
  let op := d_opcode d in
  if type =? R_MIPS_26 then
    ROk ([(d_offset d, Z.lor (Z.land op 0xFC000000) (Z.land (Z.land op 0x03FFFFFF + Z.shiftr (d_base d) 2) 0x03FFFFFF))], hs, true)
  else if type =? R_MIPS_32 then ROk ([(d_offset d, u32 (op + s32 (d_base d)))], hs, true)
  else if type =? R_MIPS_HI16 then ROk ([(d_offset d, op)], hs ++ [mkHi (d_offset d) (d_base d) op], true)
  else if type =? R_MIPS_LO16 then
    do r <- processHi16Entries hs op (d_base d);
    ROk (fst r ++ [(d_offset d, Z.lor (Z.land op 0xFFFF0000) (Z.land (Z.land op 0xFFFF + d_base d) 0xFFFF))], [], snd r)
  else ROk ([], hs, false).
(** finish: MipsElfRelocator.cpp 65-71. *)
Definition mips_finish (hs : list hi16) : res (list action * bool) :=
  match hs with
  | [] => ROk ([], true)
  | h :: _ => processHi16Entries hs 0 (h_base h)
  end.

(** ** ARM *)

Definition R_ARM_ABS32 := 2.  Definition R_ARM_THM_CALL := 10.  Definition R_ARM_CALL := 28.
Definition R_ARM_JUMP24 := 29.  Definition R_ARM_TARGET1 := 38.  Definition R_ARM_V4BX := 40.

(** signExtend: ArmElfRelocator.cpp 12-15. *)
Definition signExtend (v b : Z) : Z := Z.shiftr (s32 (Z.shiftl v (32 - b))) (32 - b).
(** [(s+a) - p] in ints. *)
Definition distance (s a p : Z) : res Z :=
  if negb (s32 (s + a) =? s + a) then RUb else if negb (s32 (s + a - p) =? s + a - p) then RUb else ROk (s + a - p).
(** The low half of a Thumb call for an ARM target: ArmElfRelocator.cpp 57-81. *)
Definition thumb_second (arm9 : bool) (t base second : Z) : option Z :=
  if t =? 1 then if negb (Z.rem base 2 =? 0) then None else Some second
  else if negb arm9 then None else if negb (Z.rem base 4 =? 0) then None else Some 0xE800.
(** The opcode of an ARM branch without its distance: ArmElfRelocator.cpp 98-140. *)
Definition arm_branch (arm9 : bool) (type t base op value : Z) : option Z :=
  if t =? 1 then
    if negb (Z.rem base 2 =? 0) then None
    else if type =? R_ARM_JUMP24 then None
    else if negb arm9 then None
    else if negb (Z.land (Z.shiftr op 28) 0xF =? 0xE) then None
    else Some (if Z.land value 2 =? 0 then 0xFA000000 else 0xFB000000)
  else if negb (Z.rem base 4 =? 0) then None else Some (Z.land op 0xFF000000).
(** relocateOpcode: ArmElfRelocator.cpp 36-158; [abs] of INT_MIN overflows. *)
Definition arm_relocate (arm9 : bool) (type : Z) (d : rdata) : res (list action * bool) :=
  let t := if (d_type d =? STT_FUNC) && negb (d_info d =? 0) then 1 else 0 in
  let p := s32 (d_offset d) in
  let s := s32 (d_base d) in
  let op := d_opcode d in
  if (type =? R_ARM_ABS32) || (type =? R_ARM_TARGET1) then
    ROk ([(d_offset d, Z.lor (u32 (op + d_base d)) t)], true)
  else if type =? R_ARM_THM_CALL then
    let first := Z.land op 0xFFFF in
    let second := Z.land (Z.shiftr op 16) 0xFFFF in
    let field := Z.lor (Z.shiftl (Z.land first 0x7FF) 11) (Z.land second 0x7FF) in
    do value <- distance s (signExtend (Z.shiftl field 1) 23) p;
    match thumb_second arm9 t (d_base d) (Z.land second 0xF800) with
    | None => ROk ([], false)
    | Some second =>
      if value =? -2147483648 then RUb
      else if Z.abs value >=? 0x400000 then ROk ([], false)
      else
        let v := Z.shiftr value 1 in
        let first := Z.lor (Z.land first 0xF800) (Z.land (Z.shiftr v 11) 0x7FF) in
        let second := Z.lor second (Z.land v 0x7FF) in
        ROk ([(d_offset d, u32 (Z.lor first (Z.shiftl second 16)))], true)
    end
  else if (type =? R_ARM_CALL) || (type =? R_ARM_JUMP24) then
    do value <- distance s (signExtend (Z.shiftl (Z.land op 0xFFFFFF) 2) 26) p;
    match arm_branch arm9 type t (d_base d) op value with
    | None => ROk ([], false)
    | Some op =>
      if value =? -2147483648 then RUb
      else if Z.abs value >=? 0x2000000 then ROk ([], false)
      else ROk ([(d_offset d, Z.lor op (Z.land (Z.shiftr value 2) 0xFFFFFF))], true)
    end
  else ROk ([], false).

(** ** SuperH *)

Definition R_SH_DIR32 := 1.  Definition R_SH_REL32 := 2.
(** relocateOpcode: ShElfRelocator.cpp 12-35. *)
Definition sh_relocate (type : Z) (d : rdata) : list action * bool :=
  if type =? R_SH_DIR32 then ([(d_offset d, u32 (d_opcode d + s32 (d_base d + d_addend d)))], true)
  else if type =? R_SH_REL32 then ([(d_offset d, u32 (d_opcode d + s32 (d_base d - d_offset d + d_addend d)))], true)
  else ([], false).

(** ** All machines *)

(** IElfRelocator::relocateOpcode, finish, isDummyRelocationType (ArmElfRelocator.cpp 17-22). *)
Definition relocateOpcode (m : machine) (type : Z) (d : rdata) (hs : list hi16) : res (list action * list hi16 * bool) :=
  match m with
  | Mips => mips_relocate type d hs
  | Arm arm9 => do r <- arm_relocate arm9 type d; ROk (fst r, hs, snd r)
  | Sh => let r := sh_relocate type d in ROk (fst r, hs, snd r)
  end.
Definition finish (m : machine) (hs : list hi16) : res (list action * bool) :=
  match m with Mips => mips_finish hs | _ => ROk ([], true) end.
Definition isDummyRelocationType (m : machine) (type : Z) : bool :=
  match m with Arm _ => type =? R_ARM_V4BX | _ => false end.
(** setSymbolAddress: ArmElfRelocator.cpp 160-170, MipsElfRelocator.cpp 73-77, ShElfRelocator.cpp 37-41;
    the address and the info.  Only ARM functions get an info, and only theirs is used. *)
Definition setSymbolAddress (m : machine) (value type : Z) : Z * Z :=
  match m with
  | Arm _ => if type =? STT_FUNC then (value - value mod 2, value mod 2) else (value, 0)
  | _ => (value, 0)
  end.

(** ** Files *)

(** The exported symbols (ElfRelocator.cpp 197-215), with the address set in exportSymbols (254-258). *)
Definition is_exported (s : esym) : bool :=
  ((sy_bind s =? STB_GLOBAL) || (sy_bind s =? STB_WEAK)) && negb (sy_shndx s =? 0).
Definition exports (m : machine) (f : efile) : list eexp :=
  map (fun s => mkExp (sy_shndx s) (fst (setSymbolAddress m (sy_value s) (sy_type s))) (sy_size s))
      (filter is_exported (ef_symtab f)).

(** ElfRelocator.cpp 304-305: the next address with the alignment. *)
Fixpoint bump (fuel : nat) (address align : Z) : res Z :=
  if Z.rem address align =? 0 then ROk address
  else match fuel with O => RErr | S fuel => bump fuel (address + 1) align end.
Definition align_up (address align : Z) : res Z :=
  if align =? 0 then RUb else bump (Z.to_nat align) address align.

(** ElfRelocator.cpp 296-312: the addresses of the sections, and the address behind them. *)
Fixpoint place_sections (address : Z) (ss : list esec) : res (list (Z * Z) * Z) :=
  match ss with
  | [] => ROk ([], address)
  | s :: ss =>
    do a <- align_up address (se_align s);
    do r <- place_sections (a + s32 (se_size s)) ss;
    ROk ((se_index s, a) :: fst r, snd r)
  end.
(** relocationOffsets[i] (ElfRelocator.cpp 297); a missing entry is 0. *)
Fixpoint offset_of (offsets : list (Z * Z)) (i : Z) : Z :=
  match offsets with
  | [] => 0
  | (j, a) :: offsets => if i =? j then a else offset_of offsets i
  end.

Section File.
Variables (m : machine) (labels : string -> option elabel) (big : bool) (symtab : list esym) (offsets : list (Z * Z)).

(** ElfRelocator.cpp 357-398: what the relocator gets; no value: an error. *)
Definition relocation_data (data : list Z) (base : Z) (r : erel) : res (option rdata) :=
  match nth_error symtab (Z.to_nat (r_sym r)) with
  | None => RUb
  | Some sym =>
    do op <- getDoubleWord big data (s32 (r_offset r));
    let (value, info) := setSymbolAddress m (sy_value sym) (sy_type sym) in
    let offset := s32 (r_offset r) + base in
    if sy_shndx sym =? 0 then
      if String.eqb (sy_name sym) "" then ROk None
      else match labels (sy_name sym) with
           | None => ROk None
           | Some l => ROk (Some (mkData offset (u32 (lb_value l)) op (r_addend r) (if lb_data l then STT_OBJECT else STT_FUNC) (lb_info l)))
           end
    else ROk (Some (mkData offset (offset_of offsets (sy_shndx sym) + value) op (r_addend r) (sy_type sym) info))
  end.

(** ElfRelocator.cpp 340-410: the loop over the relocations; the actions, the open entries, success. *)
Fixpoint relocations (data : list Z) (base : Z) (hs : list hi16) (rs : list erel) : res (list action * list hi16 * bool) :=
  match rs with
  | [] => ROk ([], hs, true)
  | r :: rs =>
    if isDummyRelocationType m (r_type r) then relocations data base hs rs
    else if r_sym r <=? 0 then do x <- relocations data base hs rs; ROk (fst x, false)
    else
      do d <- relocation_data data base r;
      match d with
      | None => do x <- relocations data base hs rs; ROk (fst x, false)
      | Some d =>
        do y <- relocateOpcode m (r_type r) d hs;
        let '(acts, hs, ok) := y in
        do x <- relocations data base hs rs;
        let '(acts', hs, ok') := x in
        ROk (acts ++ acts', hs, ok && ok')
      end
  end.

(** ElfRelocator.cpp 424-427 *)
Fixpoint apply_actions (data : list Z) (base : Z) (acts : list action) : res (list Z) :=
  match acts with
  | [] => ROk data
  | (offset, w) :: acts => do data <- replaceDoubleWord big data (offset - base) w; apply_actions data base acts
  end.

(** ElfRelocator.cpp 330-428: the data of a section. *)
Definition relocate_section (s : esec) (base : Z) : res (list Z * bool) :=
  do x <- relocations (se_data s) base [] (se_rels s);
  let '(acts, hs, ok) := x in
  do y <- finish m hs;
  do data <- apply_actions (se_data s) base (acts ++ fst y);
  ROk (data, ok && snd y).

(** memcpy: ElfRelocator.cpp 430-431 *)
Definition copy_to (out : list Z) (pos : Z) (data : list Z) : res (list Z) :=
  if (pos <? 0) || (Z.of_nat (length out) <? pos + Z.of_nat (length data)) then RUb
  else ROk (firstn (Z.to_nat pos) out ++ data ++ skipn (Z.to_nat pos + length data) out).

(** ElfRelocator.cpp 319-432: the loop over the sections. *)
Fixpoint load_sections (out : list Z) (data_start start : Z) (ss : list esec) : res (list Z * bool) :=
  match ss with
  | [] => ROk (out, true)
  | s :: ss =>
    if se_nobits s then load_sections out data_start start ss
    else
      let base := offset_of offsets (se_index s) in
      do x <- relocate_section s base;
      do out <- copy_to out (data_start + base - start) (fst x);
      do y <- load_sections out data_start start ss;
      ROk (fst y, snd x && snd y)
  end.

(** ElfRelocator.cpp 435-466: the addresses of the symbols. *)
Definition reserve (out : list Z) (n : Z) : res (list Z) :=
  if n <? 0 then RUb else ROk (out ++ repeat 0 (Z.to_nat n)).
Fixpoint place_symbols (out : list Z) (address : Z) (xs : list eexp) : res (list Z * Z * list Z) :=
  match xs with
  | [] => ROk (out, address, [])
  | x :: xs =>
    if ex_section x =? SHN_ABS then
      do r <- place_symbols out address xs; ROk (fst r, ex_relative x :: snd r)
    else if ex_section x =? SHN_COMMON then
      do a <- align_up address (ex_relative x);
      do out <- reserve out (a + ex_size x - address);
      do r <- place_symbols out (a + ex_size x) xs; ROk (fst r, a :: snd r)
    else
      do r <- place_symbols out address xs; ROk (fst r, ex_relative x + offset_of offsets (ex_section x) :: snd r)
  end.
End File.

(** relocateFile: ElfRelocator.cpp 291-469; output, next address, symbol addresses, success. *)
Record placed := mkPlaced { p_out : list Z; p_address : Z; p_offsets : list (Z * Z); p_symbols : list Z; p_ok : bool }.
Definition relocateFile (m : machine) (labels : string -> option elabel) (out : list Z) (address : Z) (f : efile) : res placed :=
  do pl <- place_sections address (ef_sections f);
  let (offsets, next) := pl in
  do reserved <- reserve out (next - address);
  do x <- load_sections m labels (ef_big f) (ef_symtab f) offsets reserved (Z.of_nat (length out)) address (ef_sections f);
  do y <- place_symbols offsets (fst x) next (exports m f);
  ROk (mkPlaced (fst (fst y)) (snd (fst y)) offsets (snd y) (snd x)).

(** relocate: ElfRelocator.cpp 471-492, without the check sum; the files one after the other. *)
Fixpoint relocate_files (m : machine) (labels : string -> option elabel) (out : list Z) (address : Z) (fs : list efile) : res (list Z * Z * list placed * bool) :=
  match fs with
  | [] => ROk (out, address, [], true)
  | f :: fs =>
    do p <- relocateFile m labels out address f;
    do r <- relocate_files m labels (p_out p) (p_address p) fs;
    let '(out, address, ps, ok) := r in
    ROk (out, address, p :: ps, p_ok p && ok)
  end.
Definition relocate (m : machine) (labels : string -> option elabel) (address : Z) (fs : list efile) : res (list Z * Z * list placed * bool) :=
  do r <- relocate_files m labels [] address fs;
  let '(out, next, ps, ok) := r in
  ROk (out, next - address, ps, ok).
