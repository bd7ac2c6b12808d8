(** ELF programs: loading, positions, writing and saving.

    Files: Core/ELF/ElfFile.cpp (ElfSection::writeHeader, writeData, setOffsetBase 39-73, ElfSegment::writeData, writeHeader
    119-159, writeToData, sortSections 177-188, ElfFile::writeHeader 305-321, load 351-443, save 445-497),
    Archs/MIPS/MipsElfFile.cpp (10-260), Util/ByteArray.cpp (append, reserveBytes, alignSize 75-117),
    Util/ByteArray.h (replaceWord, replaceDoubleWord 62-95), Core/FileManager.cpp (advanceMemory 365-372),
    Commands/CDirectiveFile.cpp (CDirectivePosition 170-202), Commands/CDirectiveData.cpp (Validate, Encode 311-475).

    Simplified: a file is the list of its bytes.  The results of the two sorts (std::sort is not stable) and the order of the
    four parts (determinePartOrder 220-273) are any reordering.  alignSize appends its zeros at once.  setSection, which nothing
    calls, is left out.  Of the messages only whether there is one is kept.  [RUb]: an access behind the end of the bytes. *)

Require Import ZArith Bool List Permutation.
Require Import Verif.Ints Verif.Res Verif.ElfModel Verif.PsxModel Verif.ElfReadModel.
Import ListNotations.
Local Open Scope Z_scope.

(** ** Bytes *)

(** reserveBytes: ByteArray.cpp 102-107 *)
Definition reserve (n : Z) (out : list Z) : list Z := out ++ repeat 0 (Z.to_nat n).
(** alignSize: ByteArray.cpp 109-117 *)
Definition alignSize (a : Z) (out : list Z) : list Z := if a <=? 0 then out else reserve ((- size out) mod a) out.
(** Bytes of a number. *)
Definition bytes2 (big : bool) (w : Z) : list Z := let l := [w mod 256; (w / 256) mod 256] in if big then rev l else l.
(** replaceWord and replaceDoubleWord (ByteArray.h 62-95), memcpy: nothing is changed if there is no room. *)
Definition put (d : list Z) (pos : Z) (x : list Z) : list Z :=
  if size d <? pos + size x then d else firstn (Z.to_nat pos) d ++ x ++ skipn (Z.to_nat pos + List.length x) d.
(** Several of them one after the other. *)
Fixpoint put_words (big : bool) (d : list Z) (pos : Z) (ws : list Z) : list Z :=
  match ws with [] => d | w :: ws => put_words big (put d pos (split_word big w)) (pos + 4) ws end.
Fixpoint put_halves (big : bool) (d : list Z) (pos : Z) (ws : list Z) : list Z :=
  match ws with [] => d | w :: ws => put_halves big (put d pos (bytes2 big w)) (pos + 2) ws end.

(** ** Headers *)

(** ElfSection::writeHeader: ElfFile.cpp 39-51 *)
Definition writeSectionHeader (big : bool) (d : list Z) (pos : Z) (h : shdr) : list Z :=
  put_words big d pos [sh_name h; sh_type h; sh_flags h; sh_addr h; sh_offset h; sh_size h; sh_link h; sh_info h; sh_addralign h; sh_entsize h].
(** ElfSegment::writeHeader: ElfFile.cpp 149-159 *)
Definition writeSegmentHeader (big : bool) (d : list Z) (pos : Z) (h : phdr) : list Z :=
  put_words big d pos [p_type h; p_offset h; p_vaddr h; p_paddr h; p_filesz h; p_memsz h; p_flags h; p_align h].
(** ElfFile::writeHeader: ElfFile.cpp 305-321; the position is 0. *)
Definition writeElfHeader (big : bool) (d : list Z) (h : ehdr) : list Z :=
  let d := put d 0 (e_ident h) in
  let d := put_halves big d 0x10 [e_type h; e_machine h] in
  let d := put_words big d 0x14 [e_version h; e_entry h; e_phoff h; e_shoff h; e_flags h] in
  put_halves big d 0x28 [e_ehsize h; e_phentsize h; e_phnum h; e_shentsize h; e_shnum h; e_shstrndx h].

Definition with_tables (phoff shoff : Z) (h : ehdr) : ehdr :=
  mkEhdr (e_ident h) (e_type h) (e_machine h) (e_version h) (e_entry h) phoff shoff (e_flags h) (e_ehsize h) (e_phentsize h) (e_phnum h)
    (e_shentsize h) (e_shnum h) (e_shstrndx h).
Definition with_place (offset paddr : Z) (h : phdr) : phdr :=
  mkPhdr (p_type h) offset (p_vaddr h) paddr (p_filesz h) (p_memsz h) (p_flags h) (p_align h).
Definition with_header (h : shdr) (s : section) : section := mkSection h (s_name s) (s_data s) (s_owned s).

(** ** Saving *)

(** What save changes: the bytes, the header, the segments and the sections. *)
Record wstate := mkW { w_out : list Z; w_hdr : ehdr; w_segments : list segment; w_sections : list section }.

(** ElfSection::writeData: ElfFile.cpp 54-68 *)
Definition write_loose (out : list Z) (s : section) : list Z * section :=
  if sh_type (s_hdr s) =? SHT_NULL then (out, s)
  else let out := if sh_addralign (s_hdr s) =? 4294967295 then out else alignSize (sh_addralign (s_hdr s)) out in
       (out ++ s_data s, with_header (with_offset (u32 (size out)) (s_hdr s)) s).
(** setOffsetBase: ElfFile.cpp 70-73 *)
Definition setOffsetBase (base : Z) (s : section) : section := with_header (with_offset (u32 (sh_offset (s_hdr s) + base)) (s_hdr s)) s.
(** ElfSegment::writeData: ElfFile.cpp 119-147; a number without a section does not occur. *)
Definition write_segment (out : list Z) (ss : list section) (g : segment) : list Z * list section * segment :=
  match g_sections g with
  | [] =>
    let out := alignSize (p_align (g_hdr g)) out in
    (out, ss, mkSegment (with_place (u32 (size out)) (if p_offset (g_hdr g) =? p_paddr (g_hdr g) then u32 (size out) else p_paddr (g_hdr g)) (g_hdr g))
                (g_data g) (g_sections g) (g_paddr g))
  | i :: _ =>
    let align := match nth_error ss i with Some s => s32 (sh_addralign (s_hdr s)) | None => 0 end in
    let out := alignSize (Z.max align 16) out in
    let offset := u32 (size out) in
    let ss := fold_left (fun ss i => change_nth i (setOffsetBase offset) ss) (g_sections g) ss in
    let paddr := match g_paddr g with
                 | Some i => match nth_error ss i with Some s => sh_offset (s_hdr s) | None => p_paddr (g_hdr g) end
                 | None => p_paddr (g_hdr g)
                 end in
    (out ++ g_data g, ss, mkSegment (with_place offset paddr (g_hdr g)) (g_data g) (g_sections g) (g_paddr g))
  end.
Fixpoint write_segments (out : list Z) (ss : list section) (gs : list segment) : list Z * list section * list segment :=
  match gs with
  | [] => (out, ss, [])
  | g :: gs =>
    let '(out, ss, g) := write_segment out ss g in
    let '(out, ss, gs) := write_segments out ss gs in
    (out, ss, g :: gs)
  end.
Fixpoint write_looses (out : list Z) (ss : list section) (is : list nat) : list Z * list section :=
  match is with
  | [] => (out, ss)
  | i :: is =>
    match nth_error ss i with
    | Some s => let '(out, s) := write_loose out s in write_looses out (change_nth i (fun _ => s) ss) is
    | None => write_looses out ss is
    end
  end.

(** ElfPart: ElfFile.h 8 *)
Inductive part := SegmentTable | SectionTable | Segments | LooseSections.
(** ElfFile.cpp 454-478: one part. *)
Definition save_part (loose : list nat) (w : wstate) (p : part) : wstate :=
  let h := w_hdr w in
  match p with
  | SegmentTable =>
    let out := alignSize 4 (w_out w) in
    mkW (reserve (Z.of_nat (List.length (w_segments w)) * e_phentsize h) out) (with_tables (u32 (size out)) (e_shoff h) h) (w_segments w) (w_sections w)
  | SectionTable =>
    let out := alignSize 4 (w_out w) in
    mkW (reserve (Z.of_nat (List.length (w_sections w)) * e_shentsize h) out) (with_tables (e_phoff h) (u32 (size out)) h) (w_segments w) (w_sections w)
  | Segments =>
    let '(out, ss, gs) := write_segments (w_out w) (w_sections w) (w_segments w) in mkW out h gs ss
  | LooseSections =>
    let '(out, ss) := write_looses (w_out w) (w_sections w) loose in mkW out h (w_segments w) ss
  end.
(** ElfFile.cpp 484-494: the tables. *)
Fixpoint write_segment_table (big : bool) (d : list Z) (pos step : Z) (gs : list segment) : list Z :=
  match gs with [] => d | g :: gs => write_segment_table big (writeSegmentHeader big d pos (g_hdr g)) (pos + step) step gs end.
Fixpoint write_section_table (big : bool) (d : list Z) (pos step : Z) (ss : list section) : list Z :=
  match ss with [] => d | s :: ss => write_section_table big (writeSectionHeader big d pos (s_hdr s)) (pos + step) step ss end.
(** save: ElfFile.cpp 445-497 *)
Definition save (order : list part) (f : elf) : list Z :=
  let w := fold_left (save_part (f_loose f)) order (mkW (repeat 0 52) (f_hdr f) (f_segments f) (f_sections f)) in
  let h := w_hdr w in
  let big := is_big (e_ident h) in
  let d := writeElfHeader big (w_out w) h in
  let d := write_segment_table big d (e_phoff h) (e_phentsize h) (w_segments w) in
  write_section_table big d (e_shoff h) (e_shentsize h) (w_sections w).

(** ** Programs *)

(** The sorting in load, ElfFile.cpp 432-440, in any order. *)
Definition reordered_segment (g g' : segment) : Prop :=
  g_hdr g' = g_hdr g /\ g_data g' = g_data g /\ g_paddr g' = g_paddr g /\ Permutation (g_sections g) (g_sections g').
Definition reordered (f f' : elf) : Prop :=
  f_hdr f' = f_hdr f /\ f_sections f' = f_sections f /\ Permutation (f_loose f) (f_loose f') /\ Forall2 reordered_segment (f_segments f) (f_segments f').

(** MipsElfFile: MipsElfFile.h 28-38; no segment or section is -1. *)
Record program_file := mkProgram { pf_elf : elf; pf_segment : option nat; pf_section : option nat; pf_offset : Z }.
(** The section with a number in a segment. *)
Definition section_of (f : elf) (g : segment) (l : nat) : option section :=
  match nth_error (g_sections g) l with Some i => nth_error (f_sections f) i | None => None end.

(** getVirtualAddress: MipsElfFile.cpp 39-52; no value: an error.  The first sum is unsigned. *)
Definition getVirtualAddress (m : program_file) : res (option Z) :=
  match pf_segment m with
  | None => ROk None
  | Some k => match nth_error (f_segments (pf_elf m)) k, pf_section m with
              | Some g, Some l => match section_of (pf_elf m) g l with
                                  | Some s => ROk (Some (u32 (p_vaddr (g_hdr g) + sh_offset (s_hdr s)) + pf_offset m))
                                  | None => RUb
                                  end
              | _, _ => RUb
              end
  end.
(** getPhysicalAddress: MipsElfFile.cpp 54-72 *)
Definition getPhysicalAddress (m : program_file) : res (option Z) :=
  match pf_segment m, pf_section m with
  | Some k, Some l => match nth_error (f_segments (pf_elf m)) k with
                      | Some g => match section_of (pf_elf m) g l with
                                  | Some s => ROk (Some (u32 (p_offset (g_hdr g) + sh_offset (s_hdr s))))
                                  | None => RUb
                                  end
                      | None => RUb
                      end
  | Some _, None => RUb
  | None, Some i => match nth_error (loose_sections (pf_elf m)) i with Some s => ROk (Some (sh_offset (s_hdr s))) | None => RUb end
  | None, None => ROk None
  end.

(** MipsElfFile.cpp 93-106: the first section of a segment, from an address on, that contains another. *)
Fixpoint find_in (f : elf) (start a : Z) (l : list nat) (k : nat) : option (nat * Z) :=
  match l with
  | [] => None
  | i :: l => match nth_error (f_sections f) i with
              | None => None
              | Some s => let b := start + sh_offset (s_hdr s) in
                          if (b <=? a) && (a <? b + sh_size (s_hdr s)) then Some (k, a - b) else find_in f start a l (S k)
              end
  end.
(** MipsElfFile.cpp 84-112, with the start of a segment as a parameter: the first segment that contains an address; of its
    sections the first. *)
Fixpoint find_segment (f : elf) (start : phdr -> Z) (a : Z) (gs : list segment) (k : nat) : option (option (nat * nat * Z)) :=
  match gs with
  | [] => None
  | g :: gs => let b := start (g_hdr g) in
               if (b <=? a) && (a <? b + p_filesz (g_hdr g)) then
                 Some (match find_in f b a (g_sections g) 0 with Some (l, o) => Some (k, l, o) | None => None end)
               else find_segment f start a gs (S k)
  end.
(** seekVirtual: MipsElfFile.cpp 81-116 *)
Definition seekVirtual (m : program_file) (a : Z) : bool * program_file :=
  match find_segment (pf_elf m) p_vaddr a (f_segments (pf_elf m)) 0 with
  | Some (Some (k, l, o)) => (true, mkProgram (pf_elf m) (Some k) (Some l) o)
  | _ => (false, m)
  end.
(** MipsElfFile.cpp 150-164: the first segmentless section that contains an address. *)
Fixpoint find_loose (ss : list section) (a : Z) (k : nat) : option (nat * Z) :=
  match ss with
  | [] => None
  | s :: ss => if (sh_offset (s_hdr s) <=? a) && (a <? sh_offset (s_hdr s) + sh_size (s_hdr s)) then Some (k, a - sh_offset (s_hdr s)) else find_loose ss a (S k)
  end.
(** seekPhysical: MipsElfFile.cpp 118-170 *)
Definition seekPhysical (m : program_file) (a : Z) : bool * program_file :=
  match find_segment (pf_elf m) p_offset a (f_segments (pf_elf m)) 0 with
  | Some (Some (k, l, o)) => (true, mkProgram (pf_elf m) (Some k) (Some l) o)
  | Some None => (false, m)
  | None => match find_loose (loose_sections (pf_elf m)) a 0 with
            | Some (i, o) => (true, mkProgram (pf_elf m) None (Some i) o)
            | None => (false, mkProgram (pf_elf m) None None (pf_offset m))
            end
  end.
(** writeToData: ElfFile.cpp 177-183 *)
Definition writeToData (offset : Z) (x : list Z) (g : segment) : res segment :=
  if (offset <? 0) || (size (g_data g) <? offset + size x) then RUb
  else ROk (mkSegment (g_hdr g) (firstn (Z.to_nat offset) (g_data g) ++ x ++ skipn (Z.to_nat offset + List.length x) (g_data g)) (g_sections g) (g_paddr g)).
Definition with_segment (k : nat) (g : segment) (f : elf) : elf :=
  mkElf (f_hdr f) (change_nth k (fun _ => g) (f_segments f)) (f_sections f) (f_loose f) (f_symtab f) (f_strtab f) (f_ok f).
(** write: MipsElfFile.cpp 178-199; false without a message in a segmentless section. *)
Definition write (m : program_file) (x : list Z) : res (bool * program_file) :=
  match pf_segment m with
  | Some k => match nth_error (f_segments (pf_elf m)) k, pf_section m with
              | Some g, Some l => match section_of (pf_elf m) g l with
                                  | Some s => do g' <- writeToData (sh_offset (s_hdr s) + pf_offset m) x g;
                                              ROk (true, mkProgram (with_segment k g' (pf_elf m)) (Some k) (Some l) (pf_offset m + size x))
                                  | None => RUb
                                  end
              | _, _ => RUb
              end
  | None => ROk (false, m)
  end.
(** advanceMemory: FileManager.cpp 365-372; without an address it is -1. *)
Definition advanceMemory (m : program_file) (n : Z) : res (bool * program_file) :=
  do a <- getVirtualAddress m; ROk (seekVirtual m (match a with Some a => a | None => -1 end + n)).
(** open: MipsElfFile.cpp 17-21; nothing is changed but whether it is open. *)
Definition open_program (m : program_file) : program_file := m.
(** load: MipsElfFile.cpp 201-227, after the ELF file has been loaded and sorted.  No value: refused. *)
Definition load_program (f : elf) : option program_file :=
  if negb (e_type (f_hdr f) =? 2) then None
  else let m := mkProgram f None None 0 in
       Some (match f_segments f with [] => m | g :: _ => snd (seekVirtual m (p_vaddr (g_hdr g))) end).

(** [.org] with data after it: CDirectivePosition (CDirectiveFile.cpp 170-202), CDirectiveData::Validate and Encode
    (CDirectiveData.cpp 311-342, 344-475), where the first pass is [Validate] and the last [Encode].  No value: an error in
    [Validate], after which there is no [Encode]. *)
Definition patch (m : program_file) (a : Z) (x : list Z) : res (option program_file) :=
  let (ok1, m1) := seekVirtual m a in
  do r <- advanceMemory m1 (size x);
  if ok1 && fst r then
    let (_, m2) := seekVirtual (snd r) a in
    do w <- write m2 x;
    ROk (Some (snd w))
  else ROk None.
Fixpoint patches (m : program_file) (ps : list (Z * list Z)) : res (option program_file) :=
  match ps with
  | [] => ROk (Some m)
  | p :: ps => do r <- patch m (fst p) (snd p); match r with Some m => patches m ps | None => ROk None end
  end.

(** [.loadelf] with data directly after it: DirectiveLoadMipsElf::Validate and Encode, MipsElfFile.cpp 295-305, and CDirectiveData
    as in [patch].  The first pass reports that the size of the data has changed, the second one nothing; then [Encode].  The
    file manager has closed the file in between (FileManager.cpp 249-259; it is not open in [Validate]).  The address that the
    last pass has for the data, whether there was no error, and the program. *)
Definition load_data (m : program_file) (x : list Z) : res (option Z * bool * program_file) :=
  do r1 <- advanceMemory (open_program m) (size x);
  let m2 := open_program (snd r1) in
  do a <- getVirtualAddress m2;
  do r2 <- advanceMemory m2 (size x);
  do w <- write (open_program (snd r2)) x;
  ROk (a, fst r1 && fst r2 && fst w, snd w).
