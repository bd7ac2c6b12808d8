(** What importing object files is supposed to do, independent of the relocators.

    Only the decoded object files and the shape of the result are taken from [ElfModel]. *)

Require Import ZArith Bool String List.
Require Import Verif.Ints Verif.Res Verif.ElfModel.
Import ListNotations.
Local Open Scope Z_scope.

(** The word and the halfword that begin at a position. *)
Definition byte_at (data : list Z) (pos : Z) : Z := nth (Z.to_nat pos) data 0.
Definition word_at (big : bool) (data : list Z) (pos : Z) : Z :=
  if big then ((byte_at data pos * 256 + byte_at data (pos + 1)) * 256 + byte_at data (pos + 2)) * 256 + byte_at data (pos + 3)
  else ((byte_at data (pos + 3) * 256 + byte_at data (pos + 2)) * 256 + byte_at data (pos + 1)) * 256 + byte_at data pos.
Definition half_at (big : bool) (data : list Z) (pos : Z) : Z :=
  if big then byte_at data pos * 256 + byte_at data (pos + 1) else byte_at data (pos + 1) * 256 + byte_at data pos.

(** ** Placement *)

(** Blocks (alignment, size) laid out from an address on: each at the first aligned address behind the one
    before; the addresses, and the address behind all of them. *)
Inductive laid_out : Z -> list (Z * Z) -> list Z -> Z -> Prop :=
| laid_nil a : laid_out a [] [] a
| laid_cons a al sz x bs xs e :
    x mod al = 0 -> a <= x < a + al -> laid_out (x + sz) bs xs e -> laid_out a ((al, sz) :: bs) (x :: xs) e.

Definition is_common (s : esym) : bool := sy_shndx s =? SHN_COMMON.
(** The blocks of a file: the sections, then the common symbols (their value is the alignment). *)
Definition section_blocks (f : efile) : list (Z * Z) := map (fun s => (se_align s, se_size s)) (ef_sections f).
Definition common_symbols (f : efile) : list esym := filter is_common (filter is_exported (ef_symtab f)).
Definition blocks (f : efile) : list (Z * Z) :=
  section_blocks f ++ map (fun s => (sy_value s, sy_size s)) (common_symbols f).

(** The addresses of the sections, and of the common symbols of a placed file. *)
Definition section_addresses (p : placed) : list Z := map snd (p_offsets p).
Definition common_addresses (f : efile) (p : placed) : list Z :=
  map snd (filter (fun c => is_common (fst c)) (combine (filter is_exported (ef_symtab f)) (p_symbols p))).
(** All addresses of an import, in the order of the blocks. *)
Definition all_addresses (fs : list efile) (ps : list placed) : list Z :=
  flat_map (fun fp => section_addresses (snd fp) ++ common_addresses (fst fp) (snd fp)) (combine fs ps).
Definition placed_at (f : efile) (p : placed) (s : esec) (x : Z) : Prop :=
  In (s, x) (combine (ef_sections f) (section_addresses p)).

(** What an object file has to be like.  Alignments of 0 are allowed by the file format, but not here. *)
Record well_formed (f : efile) : Prop := mkWf {
  wf_index : NoDup (map se_index (ef_sections f));
  wf_special : forall s, In s (ef_sections f) -> 0 < se_index s < 0xFF00;
  wf_align : forall s, In s (ef_sections f) -> 0 < se_align s;
  wf_size : forall s, In s (ef_sections f) -> 0 <= se_size s < 2147483648;
  wf_data : forall s, In s (ef_sections f) -> se_nobits s = false -> Z.of_nat (length (se_data s)) = se_size s;
  wf_bytes : forall s, In s (ef_sections f) -> Forall is_byte (se_data s);
  wf_common : forall y, In y (common_symbols f) -> 0 < sy_value y /\ 0 <= sy_size y /\ sy_type y <> STT_FUNC
}.

(** ** Symbols *)

(** Address of a symbol and whether it is a Thumb function.  On ARM bit 0 of the value of a function is
    not part of the address. *)
Definition entry (m : machine) (y : esym) : Z :=
  match m with
  | Arm _ => if sy_type y =? STT_FUNC then sy_value y / 2 * 2 else sy_value y
  | _ => sy_value y
  end.
Definition thumb_code (y : esym) : bool := (sy_type y =? STT_FUNC) && Z.odd (sy_value y).
Inductive symbol_address (m : machine) (labels : string -> option elabel) (f : efile) (p : placed) (y : esym) : Z -> bool -> Prop :=
| sa_external l : sy_shndx y = 0 -> sy_name y <> EmptyString -> labels (sy_name y) = Some l ->
    symbol_address m labels f p y (u32 (lb_value l)) (negb (lb_data l) && negb (lb_info l =? 0))
| sa_absolute : sy_shndx y = SHN_ABS -> symbol_address m labels f p y (entry m y) (thumb_code y)
| sa_section s x : placed_at f p s x -> sy_shndx y = se_index s ->
    symbol_address m labels f p y (x + entry m y) (thumb_code y)
| sa_common v : sy_shndx y = SHN_COMMON -> In (y, v) (combine (filter is_exported (ef_symtab f)) (p_symbols p)) ->
    symbol_address m labels f p y v (thumb_code y).

(** ** References *)

(** The relocations of a section patch separate words inside of it. *)
Definition apart (r r' : erel) : Prop := r_offset r + 4 <= r_offset r' \/ r_offset r' + 4 <= r_offset r.
Definition separate (s : esec) : Prop :=
  ForallOrdPairs apart (se_rels s) /\
  Forall (fun r => 0 <= r_offset r /\ r_offset r + 4 <= se_size s) (se_rels s).

(** A section [s] at address [x] in the import of [fs] at [start], which gave [out]. *)
Record imported (m : machine) (labels : string -> option elabel) (start : Z) (fs : list efile) (out : list Z)
       (f : efile) (p : placed) (s : esec) (x : Z) : Prop := mkImported {
  im_import : exists size ps, relocate m labels start fs = ROk (out, size, ps, true) /\ In (f, p) (combine fs ps);
  im_wf : Forall well_formed fs;
  im_place : placed_at f p s x;
  im_bits : se_nobits s = false;
  im_separate : separate s
}.
(** The relocation [r] refers to a symbol with the address [a] that is a Thumb function or not. *)
Definition refers (m : machine) (labels : string -> option elabel) (f : efile) (p : placed) (r : erel) (a : Z) (thumb : bool) : Prop :=
  exists y, 0 < r_sym r /\ nth_error (ef_symtab f) (Z.to_nat (r_sym r)) = Some y /\ sy_shndx y <> SHN_COMMON /\
            symbol_address m labels f p y a thumb.

(** The same with the symbols that claims about all references would include. *)
Definition refers_any (m : machine) (labels : string -> option elabel) (f : efile) (p : placed) (r : erel) (a : Z) (thumb : bool) : Prop :=
  exists y, 0 < r_sym r /\ nth_error (ef_symtab f) (Z.to_nat (r_sym r)) = Some y /\ symbol_address m labels f p y a thumb.

(** The word a relocation is for, before and after. *)
Definition before (f : efile) (s : esec) (r : erel) : Z := word_at (ef_big f) (se_data s) (r_offset r).
Definition after (f : efile) (out : list Z) (start x : Z) (r : erel) : Z := word_at (ef_big f) out (x - start + r_offset r).

(** *** MIPS: the parts of [lui]/[addiu] pairs and jumps *)
Definition sext16 (w : Z) : Z := if w mod 65536 <? 32768 then w mod 65536 else w mod 65536 - 65536.
Definition pair_value (hi lo : Z) : Z := u32 (hi mod 65536 * 65536 + sext16 lo).
(** Where [j]/[jal] with the word [w] at the address [at_] goes. *)
Definition jump_to (at_ w : Z) : Z := (at_ + 4) / 268435456 * 268435456 + w mod 67108864 * 4.

(** *** Thumb: the two halfwords of a call, for words in little endian order *)
Definition halves (w : Z) : list Z := [w mod 65536; w / 65536].
