(** What linking PlayStation object files is supposed to do, independent of the linker.

    The contents of the files are from [PsxModel], bytes and words of lists from [ElfSpec]. *)

Require Import ZArith Bool List.
Require Import Verif.Ints Verif.Res Verif.ElfSpec Verif.PsxModel.
Import ListNotations.
Local Open Scope Z_scope.

(** ** Placement *)

Definition ceil4 (a : Z) : Z := (a + 3) / 4 * 4.
(** Blocks one after the other, each but the first at a multiple of 4; the addresses, and the address behind. *)
Fixpoint stack (a : Z) (sizes : list Z) : list Z :=
  match sizes with [] => [] | n :: sizes => a :: stack (ceil4 (a + n)) sizes end.
Fixpoint behind (a : Z) (sizes : list Z) : Z :=
  match sizes with [] => a | n :: sizes => behind (ceil4 (a + n)) sizes end.

(** The blocks of a file: the data of its segments, then the areas without data. *)
Definition segment_sizes (f : pfile) : list Z := map (fun s => size (sg_data s)) (pf_segments f).
Definition area_size (y : psym) : list Z := match ps_kind y with BSS _ n => [n] | _ => [] end.
Definition is_area (y : psym) : bool := match ps_kind y with BSS _ _ => true | _ => false end.
Definition area_sizes (f : pfile) : list Z := flat_map area_size (pf_symbols f).
Definition file_sizes (f : pfile) : list Z := segment_sizes f ++ area_sizes f.

(** The files with the addresses they begin at. *)
Fixpoint files_at (a : Z) (fs : list pfile) : list (pfile * Z) :=
  match fs with [] => [] | f :: fs => (f, a) :: files_at (behind a (file_sizes f)) fs end.
(** All blocks of the files: size and address. *)
Definition all_blocks (a : Z) (fs : list pfile) : list (Z * Z) :=
  flat_map (fun c => combine (file_sizes (fst c)) (stack (snd c) (file_sizes (fst c)))) (files_at a fs).
(** A segment of a file that begins at [a] is at [x]; an area is at [x]. *)
Definition segment_at (f : pfile) (a : Z) (s : pseg) (x : Z) : Prop :=
  In (s, x) (combine (pf_segments f) (stack a (segment_sizes f))).
Definition area_at (f : pfile) (a : Z) (y : psym) (x : Z) : Prop :=
  In (y, x) (combine (filter is_area (pf_symbols f)) (stack (behind a (segment_sizes f)) (area_sizes f))).

(** ** Symbols *)

Inductive symbol_at (f : pfile) (a : Z) (y : psym) : Z -> Prop :=
| at_internal seg off s x : ps_kind y = Internal seg off -> segment_at f a s x -> sg_id s = seg -> symbol_at f a y (x + off)
| at_function seg off s x : ps_kind y = Function_ seg off -> segment_at f a s x -> sg_id s = seg -> symbol_at f a y (x + off)
| at_internal_id id seg off s x : ps_kind y = InternalID id seg off -> segment_at f a s x -> sg_id s = seg -> symbol_at f a y (x + off)
| at_area x : area_at f a y x -> symbol_at f a y x.
Definition symbol_id (y : psym) : option Z :=
  match ps_kind y with InternalID id _ _ | External id | BSS id _ => Some id | _ => None end.
(** The names that a list of files defines. *)
Definition defines (y : psym) : bool := negb (is_external y).
Definition defined_names (fs : list pfile) : list (list Z) :=
  map (fun y => lower (ps_name y)) (filter defines (flat_map pf_symbols fs)).

(** ** References *)

(** The address that a relocation is for. *)
Inductive refers_to (f : pfile) (a : Z) (labels : env) (r : prel) : Z -> Prop :=
| to_segment s x : pr_ref r = SegmentOffset -> segment_at f a s x -> sg_id s = pr_id r ->
    refers_to f a labels r (x + pr_pos r + pr_relative r)
| to_symbol y v : pr_ref r = SymblId -> In y (pf_symbols f) -> symbol_id y = Some (pr_id r) -> symbol_at f a y v ->
    refers_to f a labels r (v + pr_relative r)
| to_external y v : pr_ref r = SymblId -> In y (pf_symbols f) -> ps_kind y = External (pr_id r) -> labels (lower (ps_name y)) = Some v ->
    refers_to f a labels r (v + pr_relative r).

(** ** What the files have to be like *)

Definition apart4 (r r' : prel) : Prop := pr_offset r + 4 <= pr_offset r' \/ pr_offset r' + 4 <= pr_offset r.
Record fine_segment (s : pseg) : Prop := mkFineSegment {
  fs_size : size (sg_data s) < 2147483648;
  fs_bytes : Forall is_byte (sg_data s);
  fs_inside : Forall (fun r => 0 <= pr_offset r /\ pr_offset r + 4 <= size (sg_data s)) (sg_rels s);
  fs_apart : ForallOrdPairs apart4 (sg_rels s)
}.
Record fine_file (f : pfile) : Prop := mkFineFile {
  ff_ids : NoDup (map sg_id (pf_segments f));
  ff_segments : Forall fine_segment (pf_segments f);
  ff_areas : Forall (fun n => 0 <= n) (area_sizes f);
  ff_symbols : NoDup (flat_map (fun y => match symbol_id y with Some i => [i] | None => [] end) (pf_symbols f))
}.

(** The last pass over an import: nothing moves any more. *)
Record settled (labels : env) (address : Z) (fs : list pfile) (out : list Z) : Prop := mkSettled {
  se_import : exists r, psx_import labels address fs = ROk r /\ pt_ok r = true /\ pt_out r = out /\
                        (forall n, pt_labels r n = labels n);
  se_fine : Forall fine_file fs;
  se_names : NoDup (defined_names fs)
}.

(** The words before and after. *)
Definition word_before (s : pseg) (r : prel) : Z := word_at false (sg_data s) (pr_offset r).
Definition word_after (out : list Z) (address x : Z) (r : prel) : Z := word_at false out (x - s32 address + pr_offset r).
(** The lower halves of the words are still empty, as the compiler leaves them. *)
Definition empty_halves (s : pseg) : Prop :=
  forall r, In r (sg_rels s) -> pr_type r = LowerImmediate -> word_before s r mod 65536 = 0.
(** What becomes of a word, with the address [t]. *)
Inductive patched (before after t : Z) : rtype -> Prop :=
| patched_word : after = u32 (before + t) -> patched before after t WordLiteral
| patched_call : after / 67108864 = before / 67108864 -> after mod 67108864 = (before mod 67108864 + t / 4) mod 67108864 ->
    patched before after t FunctionCall
| patched_low : after / 65536 = before / 65536 -> after mod 65536 = (before + t) mod 65536 -> patched before after t LowerImmediate
| patched_high : after / 65536 = before / 65536 -> u32 (after mod 65536 * 65536 + sext16 t) = u32 (before mod 65536 * 65536 + t) ->
    patched before after t UpperImmediate.
(** The end of the files. *)
Fixpoint files_end (a : Z) (fs : list pfile) : Z :=
  match fs with [] => a | f :: fs => files_end (behind a (file_sizes f)) fs end.

(** ** Sound objects *)

(** Two relocations for the same place of the same thing, apart from what is added to it. *)
Definition same_group (r r' : prel) : Prop := pr_ref r = pr_ref r' /\ pr_id r = pr_id r' /\ pr_pos r = pr_pos r'.
Definition is_half (r : prel) : Prop := pr_type r = UpperImmediate \/ pr_type r = LowerImmediate.
(** Each upper half has a lower half for the same address. *)
Definition each_has_low (rs : list prel) : Prop :=
  forall r, In r rs -> pr_type r = UpperImmediate -> exists l, In l rs /\ pr_type l = LowerImmediate /\ same_group r l /\ pr_relative r = pr_relative l.
(** All halves for the same thing add the same to it. *)
Definition one_address (rs : list prel) : Prop :=
  forall r r', In r rs -> In r' rs -> is_half r -> is_half r' -> same_group r r' -> pr_relative r = pr_relative r'.
(** The address of a relocation is there and fits into an int. *)
Inductive in_range (f : pfile) (a : Z) (labels : env) (r : prel) : Prop :=
| range_segment s x : pr_ref r = SegmentOffset -> segment_at f a s x -> sg_id s = pr_id r ->
    is_int32 (x + pr_pos r) -> is_int32 (x + pr_pos r + pr_relative r) -> in_range f a labels r
| range_symbol y v : pr_ref r = SymblId -> In y (pf_symbols f) -> symbol_id y = Some (pr_id r) -> symbol_at f a y v ->
    is_int32 (v + pr_relative r) -> in_range f a labels r
| range_external y v : pr_ref r = SymblId -> In y (pf_symbols f) -> ps_kind y = External (pr_id r) ->
    labels (lower (ps_name y)) = Some v -> is_int32 (s32 v + pr_relative r) -> in_range f a labels r.
(** An object as a compiler makes it, at the address [a]. *)
Record sound (labels : env) (f : pfile) (a : Z) : Prop := mkSound {
  so_fine : fine_file f;
  so_defined : forall y, In y (pf_symbols f) -> is_external y = false -> exists v, symbol_at f a y v;
  so_symbols : forall y v, In y (pf_symbols f) -> symbol_at f a y v -> labels (lower (ps_name y)) = Some v /\ is_int32 v;
  so_external : forall y, In y (pf_symbols f) -> is_external y = true -> exists v, labels (lower (ps_name y)) = Some v;
  so_range : forall s r, In s (pf_segments f) -> In r (sg_rels s) -> in_range f a labels r;
  so_halves : forall s, In s (pf_segments f) -> empty_halves s /\ each_has_low (sg_rels s)
}.
(** The relocations as they are sorted on import. *)
Definition sorted_file (f : pfile) : pfile := mkPfile (map sort_segment (pf_segments f)) (pf_symbols f).
