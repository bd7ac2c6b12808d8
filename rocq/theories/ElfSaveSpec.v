(** ELF programs as they are in files, and what saving keeps of them; independent of the code. *)

Require Import ZArith Bool List.
Require Import Verif.Ints Verif.BytesSpec Verif.ElfModel Verif.PsxModel Verif.ElfReadModel Verif.ElfReadSpec.
Import ListNotations.
Local Open Scope Z_scope.

(** The bytes that a section has in the file. *)
Definition has_bits (s : shdr) : bool := negb (sh_type s =? SHT_NULL) && negb (sh_type s =? SHT_NOBITS).
Definition extent (s : shdr) : Z := if sh_type s =? SHT_NOBITS then 0 else sh_size s.
Definition bytes_at (d : list Z) (pos n : Z) : list Z := firstn (Z.to_nat n) (skipn (Z.to_nat pos) d).

(** A program: the header, the segments with their bytes, and the headers of the sections. *)
Record program (big : bool) (d : list Z) (h : ehdr) (gs : list (phdr * list Z)) (ss : list shdr) : Prop := mkProgramIn {
  pg_size : size d < 2147483648;
  pg_header : has d 0 (ehdr_bytes big h);
  pg_fine : fine_ehdr big h;
  pg_phnum : e_phnum h = Z.of_nat (List.length gs);
  pg_shnum : e_shnum h = Z.of_nat (List.length ss);
  pg_segments : forall k g x, nth_error gs k = Some (g, x) ->
    has d (e_phoff h + Z.of_nat k * e_phentsize h) (phdr_bytes big g) /\ fine_phdr g /\ has d (p_offset g) x /\ p_filesz g = size x /\ p_offset g + size x <= size d;
  pg_sections : forall i s, nth_error ss i = Some s ->
    has d (e_shoff h + Z.of_nat i * e_shentsize h) (shdr_bytes big s) /\ fine_shdr s /\ sh_offset s + extent s < 2147483648 /\
    (has_bits s = true -> sh_offset s + sh_size s <= size d)
}.

(** A section belongs to the first segment that has all of its bytes. *)
Definition holds (g : phdr) (s : shdr) : bool := (p_offset g <=? sh_offset s) && (sh_offset s + extent s <=? p_offset g + p_filesz g).
Fixpoint owner (gs : list phdr) (s : shdr) : option nat :=
  match gs with [] => None | g :: gs => if holds g s then Some O else option_map S (owner gs s) end.

(** Headers with other places. *)
Definition placed_header (h h' : ehdr) : Prop :=
  e_ident h' = e_ident h /\ e_type h' = e_type h /\ e_machine h' = e_machine h /\ e_version h' = e_version h /\ e_entry h' = e_entry h /\ e_flags h' = e_flags h /\
  e_ehsize h' = e_ehsize h /\ e_phentsize h' = e_phentsize h /\ e_phnum h' = e_phnum h /\ e_shentsize h' = e_shentsize h /\ e_shnum h' = e_shnum h /\ e_shstrndx h' = e_shstrndx h.
Definition placed_segment (g g' : phdr) : Prop :=
  p_type g' = p_type g /\ p_vaddr g' = p_vaddr g /\ p_filesz g' = p_filesz g /\ p_memsz g' = p_memsz g /\ p_flags g' = p_flags g /\ p_align g' = p_align g.
Definition placed_section (s s' : shdr) : Prop :=
  sh_name s' = sh_name s /\ sh_type s' = sh_type s /\ sh_flags s' = sh_flags s /\ sh_addr s' = sh_addr s /\ sh_size s' = sh_size s /\ sh_link s' = sh_link s /\
  sh_info s' = sh_info s /\ sh_addralign s' = sh_addralign s /\ sh_entsize s' = sh_entsize s.

(** A file [d'] with the program that [d] had, and with the bytes [gs] in the segments. *)
Record kept (d : list Z) (h : ehdr) (gs : list (phdr * list Z)) (ss : list shdr) (d' : list Z) (h' : ehdr) (gs' : list (phdr * list Z)) (ss' : list shdr) : Prop := mkKept {
  kp_header : placed_header h h';
  kp_segments : Forall2 (fun g g' => placed_segment (fst g) (fst g') /\ snd g' = snd g) gs gs';
  kp_sections : Forall2 placed_section ss ss';
  (** the sections of a segment are where they were in it *)
  kp_inside : forall i s s' k g g', nth_error ss i = Some s -> nth_error ss' i = Some s' -> owner (map fst gs) s = Some k ->
    nth_error gs k = Some g -> nth_error gs' k = Some g' -> sh_offset s' - p_offset (fst g') = sh_offset s - p_offset (fst g);
  (** the other sections have the bytes that they had *)
  kp_loose : forall i s s', nth_error ss i = Some s -> nth_error ss' i = Some s' -> owner (map fst gs) s = None -> has_bits s = true ->
    bytes_at d' (sh_offset s') (sh_size s) = bytes_at d (sh_offset s) (sh_size s);
  (** a physical address that is the place of a section stays the place of that section *)
  kp_paddr : forall k g g', nth_error gs k = Some g -> nth_error gs' k = Some g' ->
    p_paddr (fst g') = p_paddr (fst g) \/
    exists i s s', nth_error ss i = Some s /\ nth_error ss' i = Some s' /\ owner (map fst gs) s = Some k /\ p_paddr (fst g) = sh_offset s /\ p_paddr (fst g') = sh_offset s'
}.

(** Each segment has a section of its own; the entries of the tables have room for headers. *)
Definition populated (gs : list phdr) (ss : list shdr) : Prop := forall k, (k < List.length gs)%nat -> exists s, In s ss /\ owner gs s = Some k.
Definition roomy (h : ehdr) : Prop := 32 <= e_phentsize h /\ 40 <= e_shentsize h.

(** ** Memory *)

(** The byte at an address: in the first segment that has it. *)
Fixpoint memory (gs : list (phdr * list Z)) (a : Z) : option Z :=
  match gs with
  | [] => None
  | (g, x) :: gs => if (p_vaddr g <=? a) && (a <? p_vaddr g + size x) then nth_error x (Z.to_nat (a - p_vaddr g)) else memory gs a
  end.
(** Bytes at an address and after it. *)
Definition stored (before : Z -> option Z) (a : Z) (x : list Z) : Z -> option Z :=
  fun b => if (a <=? b) && (b <? a + size x) then nth_error x (Z.to_nat (b - a)) else before b.

(** The segment of an address: the first that has it; one of its sections has to have it as well. *)
Definition in_segment (a : Z) (g : phdr) : Prop := p_vaddr g <= a < p_vaddr g + p_filesz g.
Definition in_section (a : Z) (g : phdr) (s : shdr) : Prop := p_vaddr g + (sh_offset s - p_offset g) <= a < p_vaddr g + (sh_offset s - p_offset g) + sh_size s.
Definition mapped (gs : list (phdr * list Z)) (ss : list shdr) (a : Z) (k : nat) : Prop :=
  exists g x s, nth_error gs k = Some (g, x) /\ in_segment a g /\ (forall j g' x', (j < k)%nat -> nth_error gs j = Some (g', x') -> ~ in_segment a g') /\
    In s ss /\ owner (map fst gs) s = Some k /\ in_section a g s.
(** No address is in two segments. *)
Definition separate (gs : list (phdr * list Z)) : Prop := forall j k g x g' x' a, nth_error gs j = Some (g, x) -> nth_error gs k = Some (g', x') ->
  in_segment a g -> in_segment a g' -> j = k.
(** The bytes at places. *)
Definition patched (ps : list (Z * list Z)) (before : Z -> option Z) : Z -> option Z := fold_left (fun m p => stored m (fst p) (snd p)) ps before.
(** The bytes of a section in a file. *)
Definition section_bytes (d : list Z) (s : shdr) : list Z := bytes_at d (sh_offset s) (extent s).
