(** Model of the commands of a program and of the assembly loop: Commands/*.{h,cpp}, the pool of
    Archs/ARM/Pool.cpp, Archs/Architecture.cpp, and encodeAssembly and runArmips of Core/Assembler.cpp.

    A program is the tree of commands the parser builds ([src]); what Validate leaves in the members
    of a command is kept beside it ([ann]).  Names are resolved, so labels are numbers.  An
    expression is any function of the labels and the output position ([view]); what else it uses
    (constants, input files) is fixed.  An instruction is any function of these and of the delay
    state of the MIPS, giving the units it writes; data directives are any function giving units.
    Files that are included are not output files of the program.  Addresses and sizes of areas are
    exact integers.  Only errors are recorded, whether queued or printed; warnings, notices, line
    numbers, the temp file and the symbol file are left out, and so is memory mode.
    An object file is any function of the labels and its address, giving bytes, values of labels and
    whether an error was queued; ElfModel has what the function does.  Not modelled: .loadelf. *)

Require Import ZArith List Bool.
From Verif Require Import Ints Res FileModel AllocModel CrcModel.
Import ListNotations.
Local Open Scope Z_scope.

(** ** Programs *)

(** Label, Core/SymbolTable.h 31-64: isDefined, getValue, getPhysicalValue *)
Record lab := mkLab { l_def : bool; l_val : Z; l_phys : option Z }.
Definition labels := nat -> lab.
(** What an expression sees: the labels; address, file address, header size, number of the open file *)
Record view := mkView { v_labels : labels; v_virtual : Z; v_physical : Z; v_header : Z; v_file : option nat }.
Definition expr := view -> option Z.
(** Expression::evaluateInteger, Core/Expression.h: a 64-bit number *)
Definition eval (e : expr) (v : view) : option Z := match e v with Some x => Some (s64 x) | None => None end.

(** CMipsArchitecture, Archs/MIPS/Mips.h: LoadDelay, LoadDelayRegister, DelaySlot *)
Record dly := mkDly { dl_load : bool; dl_reg : Z; dl_slot : bool }.
Definition no_delay : dly := mkDly false 0 false.
Inductive arch_kind := AInvalid | AArm | AMips | ASh.

(** Units to be written: size in bytes, value *)
Definition units := list (nat * Z).
Definition units_size (l : units) : Z := Z.of_nat (list_sum (map fst l)).
(** What Validate of an instruction finds: its code, or an error after moving this far *)
Inductive iresult := ICode (l : units) | IError (moved : Z).
Definition instr := view -> dly -> iresult * dly.

(** What ElfRelocator::relocate finds, Core/ELF/ElfRelocator.cpp 291-492: outputData, the distance moved, the values given
    to the labels of symbols (462) and to the labels of sections with constructors (310), whether an error was queued.
    [None]: undefined behaviour, such as an alignment of 0. *)
Record objres := mkObj { ob_data : list Z; ob_size : Z; ob_symbols : list (nat * Z); ob_sections : list (nat * Z); ob_error : bool }.
Definition object := labels -> Z -> option objres.

Inductive amode := AlignVirtual | AlignPhysical | Fill.
Inductive cond := CIf (e : expr) | CIfdef (l : nat) | CIfndef (l : nat).

(** The commands; [CNop] stands for DummyCommand, for an absent block, and for commands without
    effect on layout and output (ArmStateCommand, CDirectiveSym).  [COpen]: .open, .create and .open
    with a copy, according to the file object.  [CLoad]: ldr with a literal.  [CInstr] has the size
    the instruction starts with.  [CObj]: .importobj and .importlib, with the function that calls the constructors. *)
Inductive src :=
| CNop
| CSeq (a b : src)
| CLabel (l : nat) (value : option expr)
| CFunction (l : nat) (c : src)
| COpen (file : nat)
| CClose
| COrg (physical : bool) (e : expr)
| CAlign (m : amode) (value : expr) (fill : option expr)
| CSkip (e : expr)
| CHeader (e : expr)
| CIncbin (content : list Z) (start size : option expr)
| CData (unit : nat) (f : nat -> view -> list Z * bool)
| CTable (t : nat)
| CArch (k : arch_kind) (big : bool)
| CMessage (is_error : bool) (text : view -> bool)
| CCond (t : cond) (a b : src)
| CMacro (c : src)
| CArea (shared : bool) (size : expr) (fill position : option expr) (c : src)
| CAuto (minr maxr : option expr) (c : src)
| CInstr (size : Z) (i : instr)
| CLoad (id : nat) (thumb : bool) (value : expr) (short : Z -> option Z) (code : Z -> Z)
| CPool
| CObj (ctor : src) (o : object).

(** ** Members changed by Validate *)

(** CDirectiveAlignFill: finalSize, fillByte *)
Record align_st := mkAlign { al_size : Z; al_byte : Z }.
(** CDirectiveArea.h 18-27 *)
Record area_st := mkArea { ar_pos : Z; ar_size : Z; ar_content : Z; ar_fill : Z; ar_file : Z }.
(** CDirectiveAutoRegion, CDirectiveArea.h 42-45 *)
Record auto_st := mkAuto { au_reset : Z; au_pos : Z; au_content : Z }.
(** RamPos of a load and its code when no literal is needed *)
Record load_st := mkLoad { ld_pos : Z; ld_short : option Z }.

Fixpoint ann (c : src) : Type :=
  match c with
  | CSeq a b => (ann a * ann b)%type
  | CLabel _ _ => bool
  | CFunction _ c => (bool * ann c)%type
  | COrg _ _ => Z
  | CAlign _ _ _ => align_st
  | CSkip _ => Z
  | CHeader _ => Z
  | CIncbin _ _ _ => (Z * Z)%type
  | CData _ _ => list Z
  | CCond _ a b => (bool * (ann a * ann b))%type
  | CMacro c => ann c
  | CArea _ _ _ _ c => (area_st * ann c)%type
  | CAuto _ _ c => (auto_st * ann c)%type
  | CInstr _ _ => (Z * units)%type
  | CLoad _ _ _ _ _ => load_st
  | CPool => (Z * list Z)%type
  | CObj c _ => (ann c * list Z)%type
  | _ => unit
  end.
(** The values the constructors give.  Members without an initial value are set by every Validate
    that reports no error; they start at 0 here. *)
Fixpoint init (c : src) : ann c :=
  match c return ann c with
  | CSeq a b => (init a, init b)
  | CLabel _ _ => false
  | CFunction _ c => (false, init c)
  | COrg _ _ => 0
  | CAlign _ _ _ => mkAlign 0 0
  | CSkip _ => 0
  | CHeader _ => 0
  | CIncbin _ _ _ => (0, 0)
  | CData _ _ => []
  | CCond _ a b => (false, (init a, init b))
  | CMacro c => init c
  | CArea _ _ _ _ c => (mkArea 0 0 0 0 0, init c)
  | CAuto _ _ c => (mkAuto 0 (-1) 0, init c)
  | CInstr n _ => (n, [])
  | CLoad _ _ _ _ _ => mkLoad 0 None
  | CPool => (-1, [])
  | CObj c _ => (init c, [])
  | CNop | COpen _ | CClose | CTable _ | CArch _ _ | CMessage _ _ => tt
  end.

(** ** Global state *)

(** ArmPoolEntry, Archs/ARM/Pool.h: the command, whether it is a Thumb one, its RamPos; the value *)
Record pentry := mkEntry { pe_id : nat; pe_thumb : bool; pe_pos : Z; pe_value : Z }.

(** File manager with the error flags, labels, areas, literals waiting for a pool, addresses given to
    literals, Global.Table, current architecture and delay state *)
Record world := mkWorld {
  w_fm : fmgr; w_labels : labels; w_alloc : alloc; w_pool : list pentry; w_slots : nat -> Z;
  w_table : nat; w_arch : arch_kind; w_delay : dly }.

Definition with_fm w m := mkWorld m (w_labels w) (w_alloc w) (w_pool w) (w_slots w) (w_table w) (w_arch w) (w_delay w).
Definition with_labels w x := mkWorld (w_fm w) x (w_alloc w) (w_pool w) (w_slots w) (w_table w) (w_arch w) (w_delay w).
Definition with_alloc w x := mkWorld (w_fm w) (w_labels w) x (w_pool w) (w_slots w) (w_table w) (w_arch w) (w_delay w).
Definition with_pool w x s := mkWorld (w_fm w) (w_labels w) (w_alloc w) x s (w_table w) (w_arch w) (w_delay w).
Definition with_table w x := mkWorld (w_fm w) (w_labels w) (w_alloc w) (w_pool w) (w_slots w) x (w_arch w) (w_delay w).
Definition with_arch w x := mkWorld (w_fm w) (w_labels w) (w_alloc w) (w_pool w) (w_slots w) (w_table w) x (w_delay w).
Definition with_delay w x := mkWorld (w_fm w) (w_labels w) (w_alloc w) (w_pool w) (w_slots w) (w_table w) (w_arch w) x.
Definition w_queue w := with_fm w (queue (w_fm w)).
Definition w_print w := with_fm w (print (w_fm w)).

Definition open_number (m : fmgr) : option nat := match active m with Some (i, _) => Some i | None => None end.
Definition view_of (w : world) : view :=
  mkView (w_labels w) (get_virtual (w_fm w)) (get_physical (w_fm w)) (get_header (w_fm w)) (open_number (w_fm w)).

(** getOpenFileID, FileManager.cpp 374-381: a number for the file object; without one an error and 0 *)
Definition file_id (w : world) : world * Z :=
  match active (w_fm w) with Some (i, _) => (w, Z.of_nat (S i)) | None => (w_queue w, 0) end.

Definition set_label (L : labels) (l : nat) (x : lab) : labels := fun k => if Nat.eqb k l then x else L k.

(** NextSection of the current architecture: Architecture.cpp 75-78, Mips.cpp 41-46; ARM and SuperH do nothing *)
Definition next_section (w : world) : world :=
  match w_arch w with
  | AInvalid => w_print w
  | AMips => with_delay w no_delay
  | AArm | ASh => w
  end.

(** Moving; the answer is not used. *)
Definition w_seek (w : world) (a : Z) : res world := do r <- seek_virtual (w_fm w) a; ROk (with_fm w (fst r)).
Definition w_seek_physical (w : world) (a : Z) : res world := do r <- seek_physical (w_fm w) a; ROk (with_fm w (fst r)).
Definition w_advance (w : world) (n : Z) : res world := do r <- advance (w_fm w) n; ROk (with_fm w (fst r)).

Section Host.
  Variable writable : nat -> bool.
  Variable own_big : bool.

  (** ** Validate *)

  (** CAssemblerLabel::Validate, CAssemblerLabel.cpp 44-95 *)
  Definition label_validate (l : nat) (value : option expr) (defined : bool) (w : world) : bool * world * bool :=
    if negb defined && l_def (w_labels w l) then (defined, w_queue w, false)
    else
      let x := w_labels w l in
      let w1 := if defined then w else with_labels w (set_label (w_labels w) l (mkLab true (l_val x) (l_phys x))) in
      let result := negb defined in
      let set_value v (w : world) :=
        let y := w_labels w l in
        if l_val y =? v then (w, false) else (with_labels w (set_label (w_labels w) l (mkLab (l_def y) v (l_phys y))), true) in
      let set_physical p (w : world) :=
        let y := w_labels w l in
        if (match l_phys y with Some q => p =? q | None => false end) then (w, false)
        else (with_labels w (set_label (w_labels w) l (mkLab (l_def y) (l_val y) (Some p))), true) in
      match value with
      | Some e => match eval e (view_of w1) with
                  | None => (true, w_print w1, result)
                  | Some v => let (w2, b) := set_value v w1 in (true, w2, result || b)
                  end
      | None =>
          let (w2, b1) := set_value (get_virtual (w_fm w1)) w1 in
          let (w3, b2) := set_physical (get_physical (w_fm w2)) w2 in
          (true, w3, result || b1 || b2)
      end.

  (** CDirectiveFile::Validate, CDirectiveFile.cpp 62-92 *)
  Definition open_validate (nofile : bool) (i : nat) (w : world) : world :=
    if nofile then w_queue w
    else let w := next_section w in with_fm w (fst (open_file writable (w_fm w) i true)).
  Definition close_validate (nofile : bool) (w : world) : world :=
    if nofile then w_queue w else let w := next_section w in with_fm w (close_file (w_fm w)).

  (** CDirectivePosition::Validate, 176-189 *)
  Definition org_validate (physical : bool) (e : expr) (pos : Z) (w : world) : res (Z * world * bool) :=
    match eval e (view_of w) with
    | None => ROk (pos, w_queue w, false)
    | Some a =>
        let w := next_section w in
        do w <- (if physical then w_seek_physical w a else w_seek w a);
        ROk (a, w, false)
    end.

  (** isPowerOfTwo, Core/Common.cpp 102-106 *)
  Definition is_power_of_two (n : Z) : bool := if n =? 0 then false else Z.land n (n - 1) =? 0.

  (** CDirectiveAlignFill::Validate, 313-365; an invalid fill value is printed after the size was set;
      without one the byte stays the 0 it starts with.  isPowerOfTwo subtracts one: undefined for the least number. *)
  Definition align_validate (m : amode) (value : expr) (fill : option expr) (a : align_st) (w : world) : res (align_st * world * bool) :=
    match eval value (view_of w) with
    | None => ROk (a, w_queue w, false)
    | Some n =>
        if (match m with Fill => false | _ => true end) && (n =? int64_min) then RUb
        else if (match m with Fill => false | _ => true end) && negb (is_power_of_two n) then ROk (a, w_queue w, false)
        else
          let gap x := let r := Z.rem x n in if r =? 0 then 0 else n - r in
          let size := match m with
                      | AlignVirtual => gap (get_virtual (w_fm w))
                      | AlignPhysical => gap (get_physical (w_fm w))
                      | Fill => n
                      end in
          match (match fill with None => Some 0 | Some e => match eval e (view_of w) with Some b => Some (s8 b) | None => None end end) with
          | None => ROk (mkAlign size (al_byte a), w_print w, false)
          | Some byte =>
              do w <- w_advance (next_section w) size;
              ROk (mkAlign size byte, w, negb (al_size a =? size))
          end
    end.

  (** CDirectiveSkip::Validate, 393-410 *)
  Definition skip_validate (e : expr) (v : Z) (w : world) : res (Z * world * bool) :=
    match eval e (view_of w) with
    | None => ROk (v, w_queue w, false)
    | Some n => do w <- w_advance (next_section w) n; ROk (n, w, false)
    end.

  (** CDirectiveHeaderSize::Validate, 451-463 *)
  Definition header_validate (e : expr) (v : Z) (w : world) : res (Z * world * bool) :=
    match eval e (view_of w) with
    | None => ROk (v, w_queue w, false)
    | Some h => do r <- header_size (w_fm w) h; ROk (h, with_fm w (fst r), false)
    end.

  (** CDirectiveIncbin::Validate, 221-263 *)
  Definition incbin_validate (content : list Z) (start size : option expr) (a : Z * Z) (w : world) : res ((Z * Z) * world * bool) :=
    let total := Z.of_nat (List.length content) in
    let start_value := match start with None => Some 0 | Some e => eval e (view_of w) end in
    match start_value with
    | None => ROk (a, w_queue w, false)
    | Some s =>
        if (match start with Some _ => true | None => false end) && (total <? s) then ROk ((s, snd a), w_queue w, false)
        else
          match (match size with None => Some (total - s) | Some e => eval e (view_of w) end) with
          | None => ROk ((s, snd a), w_queue w, false)
          | Some n =>
              if negb (in_int64 (s + n)) then RUb
              else
                let n := if total <? s + n then total - s else n in
                do w <- w_advance (next_section w) n;
                ROk ((s, n), w, false)
          end
    end.

  (** CDirectiveData::Validate, CDirectiveData.cpp 311-345 *)
  Definition data_validate (unit : nat) (f : nat -> view -> list Z * bool) (a : list Z) (w : world) : res (list Z * world * bool) :=
    let r := f (w_table w) (view_of w) in
    let w := if snd r then w_queue w else w in
    do w <- w_advance w (Z.of_nat (List.length (fst r) * unit));
    ROk (fst r, w, negb (Nat.eqb (List.length a * unit) (List.length (fst r) * unit))).

  (** ArchitectureCommand::Validate, Architecture.cpp 37-43 *)
  Definition arch_validate (k : arch_kind) (big : bool) (w : world) : world :=
    let w := with_arch w k in with_fm w (set_endianness (w_fm w) big).

  (** CDirectiveMessage::Validate, CDirectiveMessage.cpp 12-34 *)
  Definition message_validate (is_error : bool) (text : view -> bool) (w : world) : world :=
    if text (view_of w) then (if is_error then w_queue w else w) else w_queue w.

  (** CDirectiveConditional::evaluate, CDirectiveConditional.cpp 38-64 *)
  Definition cond_evaluate (t : cond) (w : world) : world * bool :=
    match t with
    | CIf e => match eval e (view_of w) with None => (w_queue w, false) | Some v => (w, negb (v =? 0)) end
    | CIfdef l => (w, l_def (w_labels w l))
    | CIfndef l => (w, negb (l_def (w_labels w l)))
    end.

  (** Validate of CMipsInstruction (CMipsInstruction.cpp 70-245), CArmInstruction, CThumbInstruction and CShInstruction
      without a literal: the size is compared with that of the previous pass; after an error the size is
      the initial one. *)
  Definition instr_validate (size : Z) (i : instr) (a : Z * units) (w : world) : res ((Z * units) * world * bool) :=
    let r := i (view_of w) (w_delay w) in
    match fst r with
    | IError n => do w <- w_advance w n; ROk ((size, snd a), w_queue w, false)
    | ICode l =>
        let w := with_delay w (snd r) in
        do w <- w_advance w (units_size l);
        ROk ((units_size l, l), w, negb (fst a =? units_size l))
    end.

  (** The part of CArmInstruction::Validate (CArmInstruction.cpp 64-347) and CThumbInstruction::Validate
      (CThumbInstruction.cpp 35-188) for ldr with a literal; Arm.addPoolValue, Arm.cpp 77-84 *)
  Definition load_size (thumb : bool) : Z := if thumb then 2 else 4.
  Definition load_validate (id : nat) (thumb : bool) (value : expr) (short : Z -> option Z) (a : load_st) (w : world) : res (load_st * world * bool) :=
    let pos := get_virtual (w_fm w) in
    match eval value (view_of w) with
    | None => ROk (mkLoad pos None, w_queue w, false)
    | Some v =>
        let v := s32 v in
        do w <- w_advance w (load_size thumb);
        match short v with
        | Some c => ROk (mkLoad pos (Some c), w, false)
        | None => ROk (mkLoad pos None, with_pool w (w_pool w ++ [mkEntry id thumb pos v]) (w_slots w), false)
        end
    end.

  (** setPoolAddress, CArmInstruction.cpp 52-62 and CThumbInstruction.cpp 23-33: the distance, when in range.  The
      distance is kept in Vars.Immediate; here the address is kept. *)
  Definition pool_distance (thumb : bool) (pos address : Z) : Z :=
    if thumb then s32 (s32 address - Z.land (pos + 4) 0xFFFFFFFD) else s32 (address - Z.land (pos + 8) 0xFFFFFFFD).
  Definition pool_reach (thumb : bool) (d : Z) : bool :=
    if thumb then (0 <=? d) && (d <=? 1020) else Z.abs d <=? 4095.
  Definition set_pool_address (w : world) (e : pentry) (address : Z) : world :=
    if pool_reach (pe_thumb e) (pool_distance (pe_thumb e) (pe_pos e) address) then
      with_pool w (w_pool w) (fun k => if Nat.eqb k (pe_id e) then address else w_slots w k)
    else w_queue w.

  (** The index of a value in the list built so far: usedValues, Pool.cpp 53 *)
  Fixpoint find_value (l : list Z) (v : Z) (i : nat) : option nat :=
    match l with [] => None | x :: l => if x =? v then Some i else find_value l v (S i) end.
  (** The loop of ArmPoolCommand::Validate, Pool.cpp 54-75.  The map holds for each value the first index
      while values are filtered; otherwise it is not read. *)
  Fixpoint pool_loop (passes position : Z) (l : list pentry) (values : list Z) (w : world) : list Z * world :=
    match l with
    | [] => (values, w)
    | e :: l =>
        let index := if passes <? 10
                     then match find_value values (pe_value e) 0 with Some i => i | None => List.length values end
                     else List.length values in
        let values := if Nat.eqb index (List.length values) then values ++ [pe_value e] else values in
        pool_loop passes position l values (set_pool_address w e (position + Z.of_nat index * 4))
    end.
  (** ArmPoolCommand::Validate, 43-82 *)
  Definition pool_validate (passes : Z) (a : Z * list Z) (w : world) : res ((Z * list Z) * world * bool) :=
    let (w, id) := file_id w in
    let old := Z.of_nat (List.length (snd a)) * 4 in
    let w := if fst a =? -1 then w else with_alloc w (forget_pool (w_alloc w) id (fst a) old) in
    let position := get_virtual (w_fm w) in
    let (values, w) := pool_loop passes position (w_pool w) [] w in
    let w := with_pool w [] (w_slots w) in
    let size := Z.of_nat (List.length values) * 4 in
    do w <- w_advance w size;
    let w := with_alloc w (set_pool (w_alloc w) id position size) in
    ROk ((position, values), w, negb (old =? size)).

  (** CDirectiveArea::Validate, CDirectiveArea.cpp 28-105, up to the contents: 34-65 *)
  Definition area_start (size : expr) (fill position : option expr) (a : area_st) (w : world) : res (area_st * world * bool) :=
    do r <- (match position with
             | Some e => match eval e (view_of w) with
                         | None => ROk (a, w_queue w, false)
                         | Some p => do w <- w_seek (next_section w) p;
                                     ROk (mkArea p (ar_size a) (ar_content a) (ar_fill a) (ar_file a), w, true)
                         end
             | None => ROk (mkArea (get_virtual (w_fm w)) (ar_size a) (ar_content a) (ar_fill a) (ar_file a), w, true)
             end);
    let '(a, w, ok) := r in
    if negb ok then ROk (a, w, false)
    else
      match eval size (view_of w) with
      | None => ROk (a, w_queue w, false)
      | Some n =>
          let a := mkArea (ar_pos a) n (ar_content a) (ar_fill a) (ar_file a) in
          if n <? 0 then ROk (a, w_queue w, false)
          else
            match fill with
            | None => ROk (a, w, true)
            | Some e => match eval e (view_of w) with
                        | None => ROk (a, w_queue w, false)
                        | Some b => ROk (mkArea (ar_pos a) n (ar_content a) (s8 b) (ar_file a), w, true)
                        end
            end
      end.
  (** After the contents, 77-104; [old]: the members before *)
  Definition area_finish (shared filled : bool) (old a : area_st) (w : world) (result : bool) : res (area_st * world * bool) :=
    let content := get_virtual (w_fm w) - ar_pos a in
    let w := if ar_size a <? content then w_queue w else w in
    do w <- (if filled || shared then w_advance w (ar_size a - content) else ROk w);
    let result := result || negb (ar_size a =? ar_size old) || negb (content =? ar_content old) in
    let (w, id) := file_id w in
    let w := if (negb (ar_file old =? id) || negb (ar_pos old =? ar_pos a) || (ar_size a =? 0)) && negb (ar_size old =? 0)
             then with_alloc w (forget_area (w_alloc w) (ar_file old) (ar_pos old) (ar_size old)) else w in
    let w := if ar_size a =? 0 then w
             else with_alloc w (set_area (w_alloc w) id (ar_pos a) (ar_size a) content filled shared) in
    ROk (mkArea (ar_pos a) (ar_size a) content (ar_fill a) id, w, result).

  (** The range of CDirectiveAutoRegion::Validate, 212-229 *)
  Definition range_of (e : option expr) (w : world) : option Z :=
    match e with None => Some (-1) | Some e => eval e (view_of w) end.

  Definition is_some {A} (x : option A) : bool := match x with Some _ => true | None => false end.

  (** DirectiveObjImport::Validate after the constructor function, CDirectiveFile.cpp 534-539, and relocate,
      ElfRelocator.cpp 471-492: the data of before is known by its check sum.  sym.relocatedAddress (437, 464) is the value
      the symbol's label has, as no other command sets it: exportSymbols refuses labels that are defined, and
      CAssemblerLabel refuses this one.  It has no value before the first pass; the label has 0 then.  New values of section
      labels are not reported. *)
  Fixpoint set_values (L : labels) (l : list (nat * Z)) : labels * bool :=
    match l with
    | [] => (L, false)
    | (k, v) :: l =>
        let x := L k in
        let (L1, b1) := if l_val x =? v then (L, false) else (set_label L k (mkLab (l_def x) v (l_phys x)), true) in
        let (L2, b2) := set_values L1 l in
        (L2, b1 || b2)
    end.
  Definition object_validate (o : object) (old : list Z) (w : world) (result : bool) : res (list Z * world * bool) :=
    match o (w_labels w) (get_virtual (w_fm w)) with
    | None => RUb
    | Some r =>
        let (L1, moved) := set_values (w_labels w) (ob_symbols r) in
        let (L2, _) := set_values L1 (ob_sections r) in
        let w := with_labels w L2 in
        let w := if ob_error r then w_queue w else w in
        do w <- w_advance w (ob_size r);
        ROk (ob_data r, w, moved || negb (get_crc32 (ob_data r) =? get_crc32 old) || result)
    end.

  (** Validate of all commands: CommandSequence.cpp 9-21, CDirectiveFunction CAssemblerLabel.cpp 125-142,
      CDirectiveConditional.cpp 66-86, MipsMacroCommand MipsMacros.cpp 20-39, CDirectiveArea 28-105,
      CDirectiveAutoRegion 188-250, TableCommand CDirectiveData.cpp 34-38, DirectiveObjImport CDirectiveFile.cpp 528-540.  A block whose address would pass
      the 64 bits is undefined behaviour. *)
  Fixpoint validate (nofile : bool) (passes : Z) (c : src) {struct c} : ann c -> world -> res (ann c * world * bool) :=
    match c return ann c -> world -> res (ann c * world * bool) with
    | CNop => fun a w => ROk (a, w, false)
    | CSeq c1 c2 => fun a w =>
        do r1 <- validate nofile passes c1 (fst a) w;
        let '(a1, w, b1) := r1 in
        do r2 <- validate nofile passes c2 (snd a) w;
        let '(a2, w, b2) := r2 in
        ROk ((a1, a2), w, b1 || b2)
    | CLabel l v => fun a w => ROk (label_validate l v a w)
    | CFunction l c => fun a w =>
        let '(d, w, b1) := label_validate l None (fst a) w in
        do r <- validate true passes c (snd a) w;
        let '(a', w, b2) := r in
        ROk ((d, a'), w, b1 || b2)
    | COpen i => fun a w => ROk (a, open_validate nofile i w, false)
    | CClose => fun a w => ROk (a, close_validate nofile w, false)
    | COrg p e => fun a w => org_validate p e a w
    | CAlign m v f => fun a w => align_validate m v f a w
    | CSkip e => fun a w => skip_validate e a w
    | CHeader e => fun a w => header_validate e a w
    | CIncbin l s n => fun a w => incbin_validate l s n a w
    | CData u f => fun a w => data_validate u f a w
    | CTable t => fun a w => ROk (a, with_table w t, false)
    | CArch k b => fun a w => ROk (a, arch_validate k b w, false)
    | CMessage e t => fun a w => ROk (a, message_validate e t w, false)
    | CCond t c1 c2 => fun a w =>
        let (w, result) := cond_evaluate t w in
        let changed := negb (Bool.eqb result (fst a)) in
        if result then
          do r <- validate nofile passes c1 (fst (snd a)) w;
          let '(a1, w, b) := r in
          ROk ((result, (a1, snd (snd a))), w, changed || b)
        else
          do r <- validate nofile passes c2 (snd (snd a)) w;
          let '(a2, w, b) := r in
          ROk ((result, (fst (snd a), a2)), w, changed || b)
    | CMacro c => fun a w => validate nofile passes c a w
    | CArea shared size fill position c => fun a w =>
        do r <- area_start size fill position (fst a) w;
        let '(s, w, ok) := r in
        if negb ok then ROk ((s, snd a), w, false)
        else
          do r <- validate true passes c (snd a) w;
          let '(a', w, b) := r in
          do r <- area_finish shared (is_some fill) (fst a) s w b;
          let '(s, w, b) := r in
          ROk ((s, a'), w, b)
    | CAuto minr maxr c => fun a w =>
        let reset := get_virtual (w_fm w) in
        if passes <? 1 then
          do r <- validate true passes c (snd a) w;
          let '(a', w, _) := r in
          let size := get_virtual (w_fm w) - reset in
          do w <- w_seek w reset;
          ROk ((mkAuto reset reset size, a'), w, true)
        else
          let s := fst a in
          match range_of minr w with
          | None => ROk ((mkAuto reset (au_pos s) (au_content s), snd a), w_queue w, false)
          | Some lo =>
              match range_of maxr w with
              | None => ROk ((mkAuto reset (au_pos s) (au_content s), snd a), w_queue w, false)
              | Some hi =>
                  let (w, id) := file_id w in
                  let r := allocate (w_alloc w) id (au_pos s) lo hi (au_content s) in
                  let w := with_alloc w (fst r) in
                  match snd r with
                  | None => ROk ((mkAuto reset (au_pos s) (au_content s), snd a), w_queue w, can_trim (w_alloc w))
                  | Some pos =>
                      do w <- (if in_int64 pos then w_seek (next_section w) pos else RUb);
                      do r <- validate true passes c (snd a) w;
                      let '(a', w, b) := r in
                      let size := get_virtual (w_fm w) - pos in
                      do w <- w_seek w reset;
                      ROk ((mkAuto reset pos size, a'), w,
                           b || negb (pos =? au_pos s) || negb (size =? au_content s))
                  end
              end
          end
    | CInstr n i => fun a w => instr_validate n i a w
    | CLoad id t v s _ => fun a w => load_validate id t v s a w
    | CPool => fun a w => pool_validate passes a w
    | CObj c o => fun a w =>
        do r <- validate nofile passes c (fst a) w;
        let '(a1, w, b) := r in
        do r <- object_validate o (snd a) w b;
        let '(data, w, b) := r in
        ROk ((a1, data), w, b)
    end.

  (** ** Encode *)

  (** Writing units with writeU8 .. writeU64; answers are not used. *)
  Definition write_unit (m : fmgr) (u : nat * Z) : res fmgr :=
    do r <- file_step writable own_big m (FWriteUnit (fst u) (snd u)); ROk (fst r).
  Fixpoint write_all (m : fmgr) (l : units) : res fmgr :=
    match l with
    | [] => ROk m
    | u :: l => do m <- write_unit m u; write_all m l
    end.
  Definition w_units (w : world) (l : units) : res world := do m <- write_all (w_fm w) l; ROk (with_fm w m).
  Definition w_write (w : world) (l : list Z) : res world := do r <- write (w_fm w) l; ROk (with_fm w (fst r)).

  (** The loop of CDirectiveAlignFill::Encode, CDirectiveFile.cpp 372-379, blocks of 128 bytes, and that of
      CDirectiveArea::Encode, CDirectiveArea.cpp 125-131, blocks of 64 bytes *)
  Fixpoint fill_loop (fuel : nat) (block : Z) (byte n : Z) (w : world) : res world :=
    match fuel with
    | O => RErr
    | S fuel => if block <? n then do w <- w_write w (repeat byte (Z.to_nat block)); fill_loop fuel block byte (n - block) w
                else w_write w (repeat byte (Z.to_nat n))
    end.
  Fixpoint area_loop (fuel : nat) (byte n : Z) (w : world) : res world :=
    match fuel with
    | O => RErr
    | S fuel => if 0 <? n then
                  let part := Z.min 64 n in
                  do w <- w_write w (repeat byte (Z.to_nat part)); area_loop fuel byte (n - part) w
                else ROk w
    end.

  (** CDirectiveAlignFill::Encode, 367-382: with a negative size memset runs over the buffer. *)
  Definition align_encode (a : align_st) (w : world) : res world :=
    if al_size a <? 0 then RUb
    else fill_loop (S (Z.to_nat (al_size a))) 128 (u8 (al_byte a)) (al_size a) w.

  (** CDirectiveIncbin::Encode, 265-277: the part is read again; a negative start or size is outside the file. *)
  Definition incbin_encode (content : list Z) (a : Z * Z) (w : world) : res world :=
    if snd a =? 0 then ROk w
    else if (fst a <? 0) || (snd a <? 0) then RUb
    else w_write w (firstn (Z.to_nat (snd a)) (skipn (Z.to_nat (fst a)) content)).

  (** CDirectiveArea::Encode, CDirectiveArea.cpp 115-134, after the contents.  The size to be filled is
      unsigned: below zero it runs away.  Allocations::validateOverlap, run before encoding, has added the
      position and the space of the area: a sum past 64 bits is undefined behaviour. *)
  Definition area_encode (shared filled : bool) (a : area_st) (w : world) : res world :=
    if negb (in_int64 (ar_pos a + ar_size a)) then RUb
    else if filled then
      let k := (ar_file a, ar_pos a) in
      let used := sub_area_usage (w_alloc w) k in
      let w := with_alloc w (sub_area_touch (w_alloc w) k) in
      do w <- (if used =? 0 then ROk w else w_advance w used);
      let n := ar_size a - ar_content a - used in
      if n <? 0 then RUb else area_loop (S (Z.to_nat n)) (u8 (ar_fill a)) n w
    else if shared then w_advance w (ar_size a - ar_content a)
    else ROk w.

  (** Encode of CArmInstruction and CThumbInstruction for ldr with a literal *)
  Definition load_encode (id : nat) (thumb : bool) (code : Z -> Z) (a : load_st) (w : world) : res world :=
    match ld_short a with
    | Some c => w_units w [(Z.to_nat (load_size thumb), c)]
    | None => w_units w [(Z.to_nat (load_size thumb), code (pool_distance thumb (ld_pos a) (w_slots w id)))]
    end.

  (** Encode of all commands: CommandSequence.cpp 23-29, CAssemblerLabel.cpp 97-100 and 144-148, CDirectiveFile.cpp 94-110,
      191-195, 412-416, 465-468, 542-549, CDirectiveData.cpp 347-382, Architecture.cpp 45-48, CDirectiveConditional.cpp 88-97,
      MipsMacros.cpp 41-44, CDirectiveArea.cpp 107-135 and 252-258, Pool.cpp 84-91 *)
  Fixpoint encode (c : src) {struct c} : ann c -> world -> res world :=
    match c return ann c -> world -> res world with
    | CSeq c1 c2 => fun a w => do w <- encode c1 (fst a) w; encode c2 (snd a) w
    | CFunction _ c => fun a w => encode c (snd a) w
    | COpen i => fun _ w => ROk (with_fm w (fst (open_file writable (w_fm w) i false)))
    | CClose => fun _ w => ROk (with_fm w (close_file (w_fm w)))
    | COrg p _ => fun a w => let w := next_section w in if p then w_seek_physical w a else w_seek w a
    | CAlign _ _ _ => fun a w => align_encode a w
    | CSkip _ => fun a w => w_advance (next_section w) a
    | CHeader _ => fun a w => do r <- header_size (w_fm w) a; ROk (with_fm w (fst r))
    | CIncbin l _ _ => fun a w => incbin_encode l a w
    | CData u _ => fun a w => w_units w (map (fun v => (u, v)) a)
    | CArch _ b => fun _ w => ROk (with_fm w (set_endianness (w_fm w) b))
    | CCond _ c1 c2 => fun a w => if fst a then encode c1 (fst (snd a)) w else encode c2 (snd (snd a)) w
    | CMacro c => fun a w => encode c a w
    | CArea shared _ fill position c => fun a w =>
        do w <- (if is_some position then w_seek (next_section w) (ar_pos (fst a)) else ROk w);
        do w <- encode c (snd a) w;
        area_encode shared (is_some fill) (fst a) w
    | CAuto _ _ c => fun a w =>
        do w <- w_seek (next_section w) (au_pos (fst a));
        do w <- encode c (snd a) w;
        w_seek w (au_reset (fst a))
    | CInstr _ _ => fun a w => w_units w (snd a)
    | CLoad id t _ _ code => fun a w => load_encode id t code a w
    | CPool => fun a w => w_units w (map (fun v => (4%nat, v)) (snd a))
    | CObj c _ => fun a w => do w <- encode c (fst a) w; w_write w (snd a)
    | CNop | CLabel _ _ | CTable _ | CMessage _ _ => fun _ w => ROk w
    end.

  (** ** encodeAssembly, Assembler.cpp 20-124 *)

  Definition clear_queued (w : world) : world :=
    let m := w_fm w in with_fm w (mkMgr (f_files m) (f_active m) (f_big m) (f_disk m) false (f_printed m)).
  (** Arm.Revalidate and Mips.Revalidate, Arm.cpp 58-67, Mips.cpp 48-53 *)
  Definition revalidate (w : world) : world :=
    let w := match w_pool w with [] => w | _ => w_queue w end in
    with_delay (with_pool w [] (w_slots w)) no_delay.
  (** The start of a pass, 42-43 *)
  Definition start_pass (w : world) : world :=
    with_alloc (with_fm w (reset (w_fm w))) (clear_sub_areas (w_alloc w)).

  (** The loop, 29-60 *)
  Fixpoint pass_loop (fuel : nat) (passes : Z) (c : src) (a : ann c) (w : world) : res (ann c * world) :=
    match fuel with
    | O => RErr
    | S fuel =>
        let w := clear_queued w in
        if 100 <=? passes then ROk (a, w_queue w)
        else
          do r <- validate false passes c a (start_pass w);
          let '(a, w, again) := r in
          let w := revalidate w in
          if again then pass_loop fuel (passes + 1) c a w else ROk (a, w)
    end.

  Definition has_error (w : world) : bool := f_queued (w_fm w) || f_printed (w_fm w).

  (** The rest, 62-123.  Only printed errors count after the queue was printed (65). *)
  Definition encode_assembly (c : src) (w : world) : res (bool * world) :=
    do r <- pass_loop 101 0 c (init c) (with_pool w [] (w_slots w));
    let (a, w) := r in
    if has_error w then ROk (false, w)
    else
      do w <- encode c a w;
      let w := if is_some (active (w_fm w)) then with_fm w (close_file (w_fm w)) else w in
      ROk (negb (f_printed (w_fm w)), w).

  (** runArmips, 202-249, from the result of parsing: no encoding after an error; an open file is closed. *)
  Definition run (c : src) (w : world) : res (bool * world) :=
    do r <- (if f_printed (w_fm w) then ROk (false, w) else encode_assembly c w);
    let (ok, w) := r in
    let w := if is_some (active (w_fm w)) then with_fm w (close_file (w_fm w)) else w in
    ROk (ok && negb (f_printed (w_fm w)), w).
End Host.
