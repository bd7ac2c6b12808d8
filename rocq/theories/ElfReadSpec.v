(** ELF objects and archives as they are laid out in files, independent of the reader.

    The structures (Elf32_Ehdr, ...) and decoded objects are from [ElfReadModel] and [ElfModel]. *)

Require Import ZArith Bool String List.
Require Import Verif.Ints Verif.BytesSpec Verif.ElfModel Verif.PsxModel Verif.ElfReadModel.
Import ListNotations.
Local Open Scope Z_scope.

(** ** Bytes in files *)

Definition has (d : list Z) (pos : Z) (x : list Z) : Prop := 0 <= pos /\ firstn (List.length x) (skipn (Z.to_nat pos) d) = x.
Definition is_half (v : Z) : Prop := 0 <= v < 65536.
Definition is_word (v : Z) : Prop := 0 <= v < 4294967296.
Definition two (big : bool) (v : Z) : list Z := encode_bytes big 2 v.
Definition four (big : bool) (v : Z) : list Z := encode_bytes big 4 v.

Definition ehdr_bytes (big : bool) (h : ehdr) : list Z :=
  e_ident h ++ two big (e_type h) ++ two big (e_machine h) ++ four big (e_version h) ++ four big (e_entry h) ++ four big (e_phoff h)
  ++ four big (e_shoff h) ++ four big (e_flags h) ++ two big (e_ehsize h) ++ two big (e_phentsize h) ++ two big (e_phnum h)
  ++ two big (e_shentsize h) ++ two big (e_shnum h) ++ two big (e_shstrndx h).
Definition fine_ehdr (big : bool) (h : ehdr) : Prop :=
  List.length (e_ident h) = 16%nat /\ is_big (e_ident h) = big /\
  Forall is_half [e_type h; e_machine h; e_ehsize h; e_phentsize h; e_phnum h; e_shentsize h; e_shnum h; e_shstrndx h] /\
  Forall is_word [e_version h; e_entry h; e_phoff h; e_shoff h; e_flags h].
Definition shdr_fields (h : shdr) : list Z :=
  [sh_name h; sh_type h; sh_flags h; sh_addr h; sh_offset h; sh_size h; sh_link h; sh_info h; sh_addralign h; sh_entsize h].
Definition shdr_bytes (big : bool) (h : shdr) : list Z := flat_map (four big) (shdr_fields h).
Definition fine_shdr (h : shdr) : Prop := Forall is_word (shdr_fields h).
Definition phdr_fields (h : phdr) : list Z :=
  [p_type h; p_offset h; p_vaddr h; p_paddr h; p_filesz h; p_memsz h; p_flags h; p_align h].
Definition phdr_bytes (big : bool) (h : phdr) : list Z := flat_map (four big) (phdr_fields h).
Definition fine_phdr (h : phdr) : Prop := Forall is_word (phdr_fields h).

(** ** Objects *)

Record osym := mkOsym { oy_name : list Z; oy_pos : Z; oy_value : Z; oy_size : Z; oy_bind : Z; oy_type : Z; oy_other : Z; oy_shndx : Z }.
Inductive body := Plain (d : list Z) | Relocations (rs : list erel) | Symbols (ys : list osym).
Record osec := mkOsec { os_hdr : shdr; os_name : list Z; os_body : body }.

Definition rel_bytes (big rela : bool) (r : erel) : list Z :=
  four big (r_offset r) ++ four big (r_sym r * 256 + r_type r) ++ (if rela then four big (r_addend r) else []).
Definition fine_rel (rela : bool) (r : erel) : Prop :=
  is_word (r_offset r) /\ 0 <= r_type r < 256 /\ 0 <= r_sym r < 16777216 /\ (if rela then is_int32 (r_addend r) else r_addend r = 0).
Definition sym_bytes (big : bool) (y : osym) : list Z :=
  four big (oy_pos y) ++ four big (oy_value y) ++ four big (oy_size y) ++ [oy_bind y * 16 + oy_type y; oy_other y] ++ two big (oy_shndx y).
Definition fine_sym (y : osym) : Prop :=
  is_word (oy_pos y) /\ is_word (oy_value y) /\ is_word (oy_size y) /\ 0 <= oy_bind y < 16 /\ 0 <= oy_type y < 16 /\
  is_byte (oy_other y) /\ is_half (oy_shndx y).

Definition is_rela (s : osec) : bool := sh_type (os_hdr s) =? SHT_RELA.
Definition content (big : bool) (s : osec) : list Z :=
  match os_body s with
  | Plain d => d
  | Relocations rs => flat_map (rel_bytes big (is_rela s)) rs
  | Symbols ys => flat_map (sym_bytes big) ys
  end.
(** The body fits the type. *)
Definition fine_body (s : osec) : Prop :=
  match os_body s with
  | Plain d => sh_type (os_hdr s) <> SHT_REL /\ sh_type (os_hdr s) <> SHT_RELA /\ sh_type (os_hdr s) <> SHT_SYMTAB
  | Relocations rs => (sh_type (os_hdr s) = SHT_REL \/ sh_type (os_hdr s) = SHT_RELA) /\ Forall (fine_rel (is_rela s)) rs
  | Symbols ys => sh_type (os_hdr s) = SHT_SYMTAB /\ Forall fine_sym ys
  end.
Definition no_bits (s : osec) : Prop := sh_type (os_hdr s) = SHT_NULL \/ sh_type (os_hdr s) = SHT_NOBITS.
(** A name in a table. *)
Definition names (table : list Z) (pos : Z) (name : list Z) : Prop := has table pos (name ++ [0]) /\ ~ In 0 name.

(** A section in a file, with its header at a place. *)
Record section_in (big : bool) (d : list Z) (pos : Z) (s : osec) : Prop := mkSectionIn {
  si_header : has d pos (shdr_bytes big (os_hdr s));
  si_fine : fine_shdr (os_hdr s);
  si_body : fine_body s;
  si_data : ~ no_bits s -> has d (sh_offset (os_hdr s)) (content big s) /\ sh_size (os_hdr s) = size (content big s);
  si_none : no_bits s -> os_body s = Plain []
}.
(** The names of the sections are in the table with the number [k]; without a table there are none. *)
Definition section_names (big : bool) (k : Z) (ss : list osec) : Prop :=
  if k =? 0 then Forall (fun s => os_name s = []) ss
  else exists t, nth_error ss (Z.to_nat k) = Some t /\ ~ no_bits t /\
       Forall (fun b => b = 0 \/ 32 <= b < 128) (content big t) /\
       Forall (fun s => if sh_type (os_hdr s) =? SHT_NULL then os_name s = [] else names (content big t) (sh_name (os_hdr s)) (os_name s)) ss.
(** The names of the symbols are in the table that the symbol table refers to. *)
Definition symbol_names (big : bool) (ss : list osec) : Prop :=
  forall t ys, In t ss -> os_body t = Symbols ys ->
  exists u, nth_error ss (Z.to_nat (sh_link (os_hdr t))) = Some u /\ sh_type (os_hdr u) = SHT_STRTAB /\ Forall (fun y => names (content big u) (oy_pos y) (oy_name y)) ys.

(** A file without segments: its header, its sections and their names. *)
Record file_of (big : bool) (d : list Z) (h : ehdr) (ss : list osec) : Prop := mkFileOf {
  fo_size : size d < 2147483648;
  fo_bytes : Forall is_byte d;
  fo_header : has d 0 (ehdr_bytes big h);
  fo_fine : fine_ehdr big h;
  fo_segments : e_phnum h = 0;
  fo_count : e_shnum h = Z.of_nat (List.length ss);
  fo_sections : forall i s, nth_error ss i = Some s -> section_in big d (e_shoff h + Z.of_nat i * e_shentsize h) s;
  fo_names : section_names big (e_shstrndx h) ss;
  fo_symbols : symbol_names big ss
}.

(** ** What the object is *)

Definition relevant (s : osec) : bool :=
  Z.testbit (sh_flags (os_hdr s)) 1 && existsb (Z.eqb (sh_type (os_hdr s))) [SHT_PROGBITS; SHT_NOBITS; SHT_INIT_ARRAY].
(** The relocations of the section with a number. *)
Definition relocations_for (ss : list osec) (k : Z) : list erel :=
  flat_map (fun s => match os_body s with Relocations rs => if sh_info (os_hdr s) =? k then rs else [] | _ => [] end) ss.
Definition numbered {A} (l : list A) : list (Z * A) := combine (map Z.of_nat (seq 0 (List.length l))) l.
Definition object_sections (big : bool) (ss : list osec) : list esec :=
  map (fun x => mkSec (fst x) (sh_type (os_hdr (snd x)) =? SHT_NOBITS) (sh_size (os_hdr (snd x))) (sh_addralign (os_hdr (snd x)))
                      (content big (snd x)) (relocations_for ss (fst x)))
      (filter (fun x => relevant (snd x)) (numbered ss)).
(** Symbols that are neither exported nor undefined are not looked up; their names are left out. *)
Definition is_public (y : osym) : bool := ((oy_bind y =? 1) || (oy_bind y =? 2)) && negb (oy_shndx y =? 0).
Definition is_undefined (y : osym) : bool := (oy_shndx y =? 0) && negb (oy_pos y =? 0).
Definition symbol_of (y : osym) : esym :=
  mkSym (if is_public y || is_undefined y then to_string (lower (oy_name y)) else EmptyString) (oy_value y) (oy_size y) (oy_bind y) (oy_type y) (oy_shndx y).
Definition object_symbols (ss : list osec) : list esym :=
  flat_map (fun s => match os_body s with Symbols ys => map symbol_of ys | _ => [] end) ss.
(** The sections with constructors, and their sizes: ".ctors" and ".init_array". *)
Definition object_ctors (ss : list osec) : list (Z * Z) :=
  map (fun x => (fst x, sh_size (os_hdr (snd x))))
      (filter (fun x => relevant (snd x) && existsb (fun n => if list_eq_dec Z.eq_dec n (os_name (snd x)) then true else false)
                 [[46; 99; 116; 111; 114; 115]; [46; 105; 110; 105; 116; 95; 97; 114; 114; 97; 121]]) (numbered ss)).

(** At most one relocation section for each section; infos are numbers of sections. *)
Definition one_each (ss : list osec) : Prop :=
  Forall (fun s => match os_body s with Relocations _ => sh_info (os_hdr s) < 65536 | _ => True end) ss /\
  ForallOrdPairs (fun s t => match os_body s, os_body t with Relocations _, Relocations _ => sh_info (os_hdr s) <> sh_info (os_hdr t) | _, _ => True end) ss.
(** One symbol table, and no tables of names other than those for the symbols and for the sections. *)
Definition one_table (k : Z) (ss : list osec) : Prop :=
  ForallOrdPairs (fun s t => match os_body s, os_body t with Symbols _, Symbols _ => False | _, _ => True end) ss /\
  forall t ys i u, In t ss -> os_body t = Symbols ys -> nth_error ss i = Some u -> sh_type (os_hdr u) = SHT_STRTAB ->
    Z.of_nat i = sh_link (os_hdr t) \/ Z.of_nat i = k.

(** ** Archives *)

Record amember := mkAmember { am_name : list Z; am_fields : list Z; am_end : list Z; am_data : list Z }.
(** A number in decimal digits. *)
Fixpoint digits (fuel : nat) (n : Z) : list Z :=
  match fuel with
  | O => []
  | S fuel => if n <? 10 then [48 + n] else digits fuel (n / 10) ++ [48 + n mod 10]
  end.
Definition decimal (n : Z) : list Z := digits 10 n.
Definition padded (n : nat) (l : list Z) : list Z := l ++ repeat 32 (n - List.length l).
(** The name with a slash, the other fields, the size, and the data, with a line feed if the size is odd. *)
Definition write_amember (m : amember) : list Z :=
  padded 16 (am_name m ++ [47]) ++ am_fields m ++ padded 10 (decimal (size (am_data m))) ++ am_end m ++ am_data m
  ++ (if Z.odd (size (am_data m)) then [10] else []).
Definition write_archive (ms : list amember) : list Z := archive_magic ++ flat_map write_amember ms.
Definition fine_amember (m : amember) : Prop :=
  (List.length (am_name m) < 15)%nat /\ Forall (fun c => c <> 0 /\ c <> 32) (am_name m) /\ List.length (am_fields m) = 32%nat /\ List.length (am_end m) = 2%nat /\
  4 <= size (am_data m) < 2147483648.
Definition is_elf (m : amember) : bool := if list_eq_dec Z.eq_dec (firstn 4 (am_data m)) elf_magic then true else false.
(** Any member with a name that has room for the slash. *)
Definition any_amember (m : amember) : Prop :=
  (List.length (am_name m) <= 15)%nat /\ Forall (fun c => c <> 0 /\ c <> 32) (am_name m) /\ List.length (am_fields m) = 32%nat /\ List.length (am_end m) = 2%nat /\
  size (am_data m) < 2147483648.
