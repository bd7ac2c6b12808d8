(** Reading archives and ELF files.

    Files: Core/ELF/ElfRelocator.cpp (loadArArchive 31-97, init 99-223, loadRelocation 281-289), Core/ELF/ElfFile.cpp
    (isSectionPartOf 80-103, addSection 105-117, loadSectionNames 190-218, loadElfHeader 286-303, loadProgramHeader 323-334,
    loadSectionHeader 336-349, load 351-443, getSymbolCount 499-505, getSymbol 507-523, getStrTableString 525-531).

    Simplified: a file is the list of its bytes, a name the list of its characters.  The order of the parts
    (determinePartOrder) and of the sections after sorting is not part of what is read here.  Of the messages only whether
    there is one is kept.  The name of a symbol is read with the symbol, not at its first use, and in lower case
    (the original name is only for the symbol files).  [RUb]: an access behind the end of the bytes or to a section that does
    not exist, or an overflow of an int.  [RErr]: a loop that does not end. *)

Require Import ZArith Bool String List Ascii.
Require Import Verif.Ints Verif.Res Verif.ElfModel Verif.PsxModel.
Import ListNotations.
Local Open Scope Z_scope.

(** ** Bytes *)

(** getWord as unsigned short and getDoubleWord as unsigned int: ByteArray.h 39-63. *)
Definition half (big : bool) (d : list Z) (pos : Z) : Z :=
  if pos + 1 >=? size d then 65535
  else match firstn 2 (skipn (Z.to_nat pos) d) with
       | [a; b] => if big then a * 256 + b else a + b * 256
       | _ => 0
       end.
Definition word (big : bool) (d : list Z) (pos : Z) : Z :=
  if pos + 3 >=? size d then 4294967295 else compose big (firstn 4 (skipn (Z.to_nat pos) d)).
(** The characters up to a zero. *)
Fixpoint c_chars (d : list Z) : res (list Z) :=
  match d with
  | [] => RUb
  | b :: d => if b =? 0 then ROk [] else do r <- c_chars d; ROk (b :: r)
  end.
Definition c_string (d : list Z) (pos : Z) : res (list Z) := if pos <? 0 then RUb else c_chars (skipn (Z.to_nat pos) d).

(** ** Archives *)

Definition elf_magic : list Z := [127; 69; 76; 70].
(** "!<arch>\n" *)
Definition archive_magic : list Z := [33; 60; 97; 114; 99; 104; 62; 10].

(** ElfRelocator.cpp 54-63: the size of a member, a sequence of chars. *)
Fixpoint member_size (n : nat) (d : list Z) (pos v : Z) : res Z :=
  match n with
  | O => ROk v
  | S n => do c <- get d pos;
           if c =? 32 then ROk v
           else do t <- (if s32 (v * 10) =? v * 10 then ROk (v * 10) else RUb);
                do v <- add_int t (s8 c - 48); member_size n d (pos + 1) v
  end.
(** ElfRelocator.cpp 69-83: the name of a member without a slash at the end; all the 16 characters if there is no
    space, up to a zero. *)
Fixpoint name_chars (n : nat) (d : list Z) (pos : Z) : res (list Z * bool) :=
  match n with
  | O => ROk ([], false)
  | S n => do c <- get d pos;
           if c =? 32 then ROk ([], true) else do r <- name_chars n d (pos + 1); ROk (c :: fst r, snd r)
  end.
Fixpoint without_slash (l : list Z) : list Z :=
  match l with [] => [] | [c] => if c =? 47 then [] else [c] | c :: l => c :: without_slash l end.
Fixpoint until_zero (l : list Z) : list Z :=
  match l with [] => [] | c :: l => if c =? 0 then [] else c :: until_zero l end.
Definition member_name (d : list Z) (pos : Z) : res (list Z) :=
  do r <- name_chars 16 d pos;
  ROk (until_zero (if snd r then without_slash (fst r) else fst r)).

(** ElfRelocator.cpp 47-94: the loop over the members; a position below 0 is a large size_t. *)
Fixpoint ar_loop (fuel : nat) (d : list Z) (pos : Z) : res (list (list Z * list Z)) :=
  if (pos <? 0) || (pos >=? size d) then ROk []
  else match fuel with
       | O => RErr
       | S fuel =>
         do n <- member_size 10 d (pos + 48) 0;
         let start := pos + 60 in
         do elf <- starts_with (skipn (Z.to_nat start) d) elf_magic;
         do entry <- (if elf then do name <- member_name d pos; do data <- mid d start n; ROk [(name, data)] else ROk []);
         let next := start + n in
         do r <- ar_loop fuel d (if Z.odd next then next + 1 else next);
         ROk (entry ++ r)
       end.
(** loadArArchive: ElfRelocator.cpp 31-97 *)
Definition loadArArchive (name d : list Z) : res (list (list Z * list Z)) :=
  do archive <- (if size d <? 8 then ROk false else starts_with d archive_magic);
  if archive then ar_loop (S (List.length d)) d 8
  else do elf <- (if size d <? 4 then ROk false else starts_with d elf_magic);
       ROk (if elf then [(name, d)] else []).

(** ** ELF files *)

(** Elf32_Ehdr, Elf32_Shdr, Elf32_Phdr: ElfTypes.h 187-231 *)
Record ehdr := mkEhdr { e_ident : list Z; e_type : Z; e_machine : Z; e_version : Z; e_entry : Z; e_phoff : Z; e_shoff : Z; e_flags : Z;
  e_ehsize : Z; e_phentsize : Z; e_phnum : Z; e_shentsize : Z; e_shnum : Z; e_shstrndx : Z }.
Record shdr := mkShdr { sh_name : Z; sh_type : Z; sh_flags : Z; sh_addr : Z; sh_offset : Z; sh_size : Z; sh_link : Z; sh_info : Z;
  sh_addralign : Z; sh_entsize : Z }.
Record phdr := mkPhdr { p_type : Z; p_offset : Z; p_vaddr : Z; p_paddr : Z; p_filesz : Z; p_memsz : Z; p_flags : Z; p_align : Z }.

Definition SHT_NULL := 0.  Definition SHT_PROGBITS := 1.  Definition SHT_SYMTAB := 2.  Definition SHT_STRTAB := 3.
Definition SHT_RELA := 4.  Definition SHT_NOBITS := 8.  Definition SHT_REL := 9.  Definition SHT_INIT_ARRAY := 14.

(** getEndianness: ElfFile.h 23-26 *)
Definition is_big (ident : list Z) : bool := nth 5 ident 0 =? 2.
(** loadElfHeader: ElfFile.cpp 286-303 *)
Definition loadElfHeader (d : list Z) : res ehdr :=
  if size d <? 16 then RUb
  else let ident := firstn 16 d in
       let big := is_big ident in
       ROk (mkEhdr ident (half big d 0x10) (half big d 0x12) (word big d 0x14) (word big d 0x18) (word big d 0x1C) (word big d 0x20)
              (word big d 0x24) (half big d 0x28) (half big d 0x2A) (half big d 0x2C) (half big d 0x2E) (half big d 0x30) (half big d 0x32)).
(** loadProgramHeader: ElfFile.cpp 323-334 *)
Definition loadProgramHeader (big : bool) (d : list Z) (pos : Z) : phdr :=
  mkPhdr (word big d pos) (word big d (pos + 4)) (word big d (pos + 8)) (word big d (pos + 12))
         (word big d (pos + 16)) (word big d (pos + 20)) (word big d (pos + 24)) (word big d (pos + 28)).
(** loadSectionHeader: ElfFile.cpp 336-349 *)
Definition loadSectionHeader (big : bool) (d : list Z) (pos : Z) : shdr :=
  mkShdr (word big d pos) (word big d (pos + 4)) (word big d (pos + 8)) (word big d (pos + 12)) (word big d (pos + 16))
         (word big d (pos + 20)) (word big d (pos + 24)) (word big d (pos + 28)) (word big d (pos + 32)) (word big d (pos + 36)).

(** ElfSection and ElfSegment: ElfFile.h 58-111; sections are known by their number. *)
Record section := mkSection { s_hdr : shdr; s_name : list Z; s_data : list Z; s_owned : bool }.
Record segment := mkSegment { g_hdr : phdr; g_data : list Z; g_sections : list nat; g_paddr : option nat }.

(** ElfFile.cpp 367-378: the segments. *)
Fixpoint loadSegments (big : bool) (d : list Z) (phoff entsize : Z) (n : nat) (i : Z) : res (list segment) :=
  match n with
  | O => ROk []
  | S n =>
    let h := loadProgramHeader big d (phoff + i * entsize) in
    do x <- mid d (p_offset h) (p_filesz h);
    do r <- loadSegments big d phoff entsize n (i + 1);
    ROk (mkSegment h x [] None :: r)
  end.

Inductive inside := Inside | Outside | Partly.
(** isSectionPartOf: ElfFile.cpp 80-103; partly is outside, with a message. *)
Definition isSectionPartOf (g : segment) (s : shdr) : res inside :=
  let start := s32 (sh_offset s) in
  let len := if sh_type s =? SHT_NOBITS then 0 else s32 (sh_size s) in
  do e <- add_int start len;
  let seg_start := s32 (p_offset (g_hdr g)) in
  let seg_end := s32 (p_offset (g_hdr g) + p_filesz (g_hdr g)) in
  if (start <? seg_start) || (seg_end <? start) then ROk Outside
  else if start =? seg_end then ROk (if len =? 0 then Inside else Outside)
  else if seg_end <? e then ROk Partly else ROk Inside.
(** ElfFile.cpp 391-400: the first segment that has the section; whether there were no messages. *)
Fixpoint find_owner (gs : list segment) (s : shdr) (k : nat) : res (option nat * bool) :=
  match gs with
  | [] => ROk (None, true)
  | g :: gs =>
    do x <- isSectionPartOf g s;
    match x with
    | Inside => ROk (Some k, true)
    | Outside => find_owner gs s (S k)
    | Partly => do r <- find_owner gs s (S k); ROk (fst r, false)
    end
  end.
Fixpoint change_nth {A} (n : nat) (f : A -> A) (l : list A) : list A :=
  match l, n with
  | [], _ => []
  | x :: l, O => f x :: l
  | x :: l, S n => x :: change_nth n f l
  end.
(** addSection: ElfFile.cpp 105-117; setOwner: 33-37 *)
Definition addSection (i : nat) (s : shdr) (g : segment) : segment :=
  mkSegment (g_hdr g) (g_data g) (g_sections g ++ [i])
    (if negb (p_paddr (g_hdr g) =? 0) && (sh_offset s =? p_paddr (g_hdr g)) then Some i else g_paddr g).
Definition with_offset (o : Z) (h : shdr) : shdr :=
  mkShdr (sh_name h) (sh_type h) (sh_flags h) (sh_addr h) o (sh_size h) (sh_link h) (sh_info h) (sh_addralign h) (sh_entsize h).

(** What load changes in its loop over the sections. *)
Record lstate := mkL { l_segments : list segment; l_sections : list section; l_loose : list nat;
  l_symtab : option nat; l_strtab : option nat; l_ok : bool }.
(** ElfFile.cpp 385-426: one section. *)
Definition load_section (d : list Z) (shstrndx : Z) (h : shdr) (l : lstate) : res lstate :=
  let i := List.length (l_sections l) in
  do o <- find_owner (l_segments l) h O;
  let ok := l_ok l && snd o in
  match fst o with
  | Some k =>
    let base := match nth_error (l_segments l) k with Some g => p_offset (g_hdr g) | None => 0 end in
    ROk (mkL (change_nth k (addSection i h) (l_segments l))
             (l_sections l ++ [mkSection (with_offset (u32 (sh_offset h - base)) h) [] [] true]) (l_loose l) (l_symtab l) (l_strtab l) ok)
  | None =>
    do data <- (if (sh_type h =? SHT_NOBITS) || (sh_type h =? SHT_NULL) then ROk [] else mid d (sh_offset h) (sh_size h));
    let symtab := if sh_type h =? SHT_SYMTAB then Some i else l_symtab l in
    let strtab := if sh_type h =? SHT_STRTAB then
                    match l_strtab l with
                    | None => Some i
                    | Some _ => if Z.of_nat i =? shstrndx then l_strtab l else Some i
                    end
                  else l_strtab l in
    ROk (mkL (l_segments l) (l_sections l ++ [mkSection h [] data false]) (l_loose l ++ [i]) symtab strtab ok)
  end.
(** The position of a section header, ElfFile.cpp 383: the product is an int, the sum unsigned. *)
Definition header_pos (shoff entsize i : Z) : res Z := if i * entsize <? 2147483648 then ROk (u32 (shoff + i * entsize)) else RUb.
Fixpoint load_sections (big : bool) (d : list Z) (shoff entsize shstrndx : Z) (n : nat) (i : Z) (l : lstate) : res lstate :=
  match n with
  | O => ROk l
  | S n =>
    do pos <- header_pos shoff entsize i;
    do l <- load_section d shstrndx (loadSectionHeader big d pos) l;
    load_sections big d shoff entsize shstrndx n (i + 1) l
  end.

(** ElfFile.cpp 194-204: whether the bytes can be names. *)
Fixpoint printable (n : nat) (d : list Z) (pos : Z) : res bool :=
  match n with
  | O => ROk true
  | S n => do b <- get d pos;
           if negb (b =? 0) && (b <? 0x20) then ROk false else if 0x7F <? b then ROk false else printable n d (pos + 1)
  end.
(** ElfFile.cpp 206-217 *)
Fixpoint set_names (d : list Z) (table : Z) (ss : list section) : res (list section) :=
  match ss with
  | [] => ROk []
  | s :: ss =>
    do s <- (if sh_type (s_hdr s) =? SHT_NULL then ROk s
             else do name <- c_string d (s32 (table + sh_name (s_hdr s))); ROk (mkSection (s_hdr s) name (s_data s) (s_owned s)));
    do ss <- set_names d table ss;
    ROk (s :: ss)
  end.
(** loadSectionNames: ElfFile.cpp 190-218 *)
Definition loadSectionNames (d : list Z) (shstrndx : Z) (ss : list section) : res (list section) :=
  if shstrndx =? 0 then ROk ss
  else match nth_error ss (Z.to_nat shstrndx) with
       | None => RUb
       | Some t =>
         if size d <? sh_offset (s_hdr t) + sh_size (s_hdr t) then
           (* at the latest the byte behind the end is looked at, unless the table is given up before *)
           do p <- printable (S (List.length d)) d (sh_offset (s_hdr t)); if p then RUb else ROk ss
         else do p <- printable (Z.to_nat (sh_size (s_hdr t))) d (sh_offset (s_hdr t));
              if p then set_names d (sh_offset (s_hdr t)) ss else ROk ss
       end.

(** ElfFile: ElfFile.h 40-55 *)
Record elf := mkElf { f_hdr : ehdr; f_segments : list segment; f_sections : list section; f_loose : list nat;
  f_symtab : option nat; f_strtab : option nat; f_ok : bool }.
(** load: ElfFile.cpp 359-443, without the order of the parts and the sorting *)
Definition load_elf (d : list Z) : res elf :=
  do h <- loadElfHeader d;
  let big := is_big (e_ident h) in
  do gs <- loadSegments big d (e_phoff h) (e_phentsize h) (Z.to_nat (e_phnum h)) 0;
  do l <- load_sections big d (e_shoff h) (e_shentsize h) (e_shstrndx h) (Z.to_nat (e_shnum h)) 0 (mkL gs [] [] None None true);
  do ss <- loadSectionNames d (e_shstrndx h) (l_sections l);
  ROk (mkElf h (l_segments l) ss (l_loose l) (l_symtab l) (l_strtab l) (l_ok l)).

(** ** Objects *)

Definition to_string (l : list Z) : string := fold_right (fun b s => String (ascii_of_N (Z.to_N b)) s) EmptyString l.

(** The segmentless section with a number. *)
Definition loose (f : elf) (k : nat) : option section :=
  match nth_error (f_loose f) k with Some i => nth_error (f_sections f) i | None => None end.
Definition loose_sections (f : elf) : list section := flat_map (fun i => match nth_error (f_sections f) i with Some s => [s] | None => [] end) (f_loose f).
Definition data_of (f : elf) (i : option nat) : option section := match i with Some i => nth_error (f_sections f) i | None => None end.

(** loadRelocation: ElfRelocator.cpp 281-289; the loop 343-347 *)
Fixpoint loadRelocations (n : nat) (big rela : bool) (d : list Z) (pos len : Z) : res (list erel) :=
  if pos >=? len then ROk []
  else match n with
       | O => RErr
       | S n =>
         let info := word big d (pos + 4) in
         do r <- loadRelocations n big rela d (pos + (if rela then 12 else 8)) len;
         ROk (mkRel (word big d pos) (info mod 256) (info / 256) (if rela then s32 (word big d (pos + 8)) else 0) :: r)
       end.
Definition relocations_of (big : bool) (s : section) : res (list erel) :=
  loadRelocations (Z.to_nat (sh_size (s_hdr s))) big (sh_type (s_hdr s) =? SHT_RELA) (s_data s) 0 (sh_size (s_hdr s)).

(** ElfRelocator.cpp 166-178: the first relocation section for a section; the info is an unsigned short. *)
Fixpoint find_relocations (ss : list section) (k : Z) : option section :=
  match ss with
  | [] => None
  | s :: ss => if ((sh_type (s_hdr s) =? SHT_REL) || (sh_type (s_hdr s) =? SHT_RELA)) && (sh_info (s_hdr s) mod 65536 =? k) then Some s
               else find_relocations ss k
  end.
(** ElfRelocator.cpp 155-158 *)
Definition is_relevant (s : section) : bool :=
  negb (Z.land (sh_flags (s_hdr s)) 2 =? 0) &&
  ((sh_type (s_hdr s) =? SHT_PROGBITS) || (sh_type (s_hdr s) =? SHT_NOBITS) || (sh_type (s_hdr s) =? SHT_INIT_ARRAY)).
(** ElfRelocator.cpp 151-195: the relevant sections. *)
Fixpoint init_sections (big : bool) (all ss : list section) (k : Z) : res (list esec) :=
  match ss with
  | [] => ROk []
  | s :: ss =>
    if is_relevant s then
      do rels <- match find_relocations all k with Some r => relocations_of big r | None => ROk [] end;
      do r <- init_sections big all ss (k + 1);
      ROk (mkSec k (sh_type (s_hdr s) =? SHT_NOBITS) (sh_size (s_hdr s)) (sh_addralign (s_hdr s)) (s_data s) rels :: r)
    else init_sections big all ss (k + 1)
  end.
(** ElfRelocator.cpp 181-191: the constructor sections, ".ctors" and ".init_array"; index and size. *)
Definition ctor_names : list (list Z) := [[46; 99; 116; 111; 114; 115]; [46; 105; 110; 105; 116; 95; 97; 114; 114; 97; 121]].
Definition is_ctor (s : section) : bool := is_relevant s && existsb (fun n => if list_eq_dec Z.eq_dec n (s_name s) then true else false) ctor_names.
Fixpoint init_ctors (ss : list section) (k : Z) : list (Z * Z) :=
  match ss with
  | [] => []
  | s :: ss => (if is_ctor s then [(k, sh_size (s_hdr s))] else []) ++ init_ctors ss (k + 1)
  end.

(** getSymbol and getStrTableString: ElfFile.cpp 507-531; the names are used for symbols that are exported or
    undefined, with a name. *)
Definition getSymbol (big : bool) (symtab : list Z) (strtab : option section) (i : Z) : res esym :=
  let pos := i * 16 in
  let st_name := word big symtab pos in
  do info <- get symtab (pos + 12);
  do _ <- get symtab (pos + 13);
  let shndx := half big symtab (pos + 14) in
  let sym name := mkSym name (word big symtab (pos + 4)) (word big symtab (pos + 8)) (info / 16) (info mod 16) shndx in
  if is_exported (sym EmptyString) || ((shndx =? 0) && negb (st_name =? 0)) then
    match strtab with
    | None => RUb
    | Some t => do name <- c_string (s_data t) st_name; ROk (sym (to_string (lower name)))
    end
  else ROk (sym EmptyString).
Fixpoint init_symbols (n : nat) (big : bool) (symtab : list Z) (strtab : option section) (i : Z) : res (list esym) :=
  match n with
  | O => ROk []
  | S n => do s <- getSymbol big symtab strtab i; do r <- init_symbols n big symtab strtab (i + 1); ROk (s :: r)
  end.

(** expectedMachine: MipsElfRelocator.cpp 7-10, ArmElfRelocator.cpp 24-27, ShElfRelocator.cpp 7-10 *)
Definition expectedMachine (m : machine) : Z := match m with Mips => 8 | Arm _ => 40 | Sh => 42 end.
(** init for one file: ElfRelocator.cpp 117-219.  No value: the file is refused. *)
Definition init_file (m : machine) (big : bool) (d : list Z) : res (option (efile * list (Z * Z))) :=
  do f <- load_elf d;
  if negb (e_type (f_hdr f) =? 1) then ROk None
  else if negb (e_machine (f_hdr f) =? expectedMachine m) then ROk None
  else if negb (Bool.eqb (is_big (e_ident (f_hdr f))) big) then ROk None
  else match f_segments f with
       | _ :: _ => ROk None
       | [] =>
         do ss <- init_sections big (loose_sections f) (loose_sections f) 0;
         do syms <- match data_of f (f_symtab f) with
                    | None => ROk []
                    | Some t => init_symbols (Z.to_nat (sh_size (s_hdr t) / 16)) big (s_data t) (data_of f (f_strtab f)) 0
                    end;
         ROk (Some (mkFile big ss syms, init_ctors (loose_sections f) 0))
       end.
Fixpoint init_files (m : machine) (big : bool) (es : list (list Z * list Z)) : res (option (list (efile * list (Z * Z)))) :=
  match es with
  | [] => ROk (Some [])
  | e :: es =>
    do f <- init_file m big (snd e);
    match f with
    | None => ROk None
    | Some f => do r <- init_files m big es; ROk (option_map (cons f) r)
    end
  end.
(** init: ElfRelocator.cpp 99-223 *)
Definition init_elf (m : machine) (big : bool) (name d : list Z) : res (option (list (efile * list (Z * Z)))) :=
  do es <- loadArArchive name d;
  match es with [] => ROk None | _ => init_files m big es end.
