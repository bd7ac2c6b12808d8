(** Importing object files: C50 to C53 and C69. *)

Require Import ZArith Lia Bool String List.
Require Import ZifyBool.
Require Import Verif.Ints Verif.Res Verif.ElfModel Verif.ElfSpec Verif.ElfProofs Verif.ElfRelocProofs Verif.ElfWordProofs Verif.ElfArmProofs Verif.ElfTotalProofs Verif.ElfCases.
Require Verif.ArmSpec Verif.ThumbSpec.
Import ListNotations.
Local Open Scope Z_scope.

(** * C53: placement *)

(** Sections and common symbols of all files are laid out in order, each at the first aligned address behind
    the one before, and the size of the import covers exactly that.  The output has the size of the import. *)
Theorem C53_layout_partial m labels start fs out size ps ok : Forall well_formed fs ->
  relocate m labels start fs = ROk (out, size, ps, ok) ->
  length ps = length fs /\ Z.of_nat (length out) = size /\
  laid_out start (flat_map blocks fs) (all_addresses fs ps) (start + size).
Proof. intros W R. destruct (relocate_spec _ _ _ _ _ _ _ _ W R) as (A & B & C & _). auto. Qed.
Print Assumptions C53_layout_partial.

(** In particular nothing overlaps, everything is aligned and inside. *)
Theorem C53_disjoint_partial m labels start fs out size ps ok : Forall well_formed fs ->
  relocate m labels start fs = ROk (out, size, ps, ok) ->
  ForallOrdPairs (fun b b' : (Z * Z) * Z => snd b + snd (fst b) <= snd b') (combine (flat_map blocks fs) (all_addresses fs ps)) /\
  (forall al sz x, In ((al, sz), x) (combine (flat_map blocks fs) (all_addresses fs ps)) ->
     x mod al = 0 /\ start <= x /\ x + sz <= start + size) /\
  (forall f p s x, In (f, p) (combine fs ps) -> placed_at f p s x ->
     In ((se_align s, se_size s), x) (combine (flat_map blocks fs) (all_addresses fs ps))).
Proof. exact (layout_disjoint m labels start fs out size ps ok). Qed.
Print Assumptions C53_disjoint_partial.

Example C53_layout_case :
  Forall well_formed [m_obj; m_obj] /\
  exists ps, relocate Mips case_labels m_start [m_obj; m_obj] = ROk (m_out, 122, ps, true) /\
    flat_map blocks [m_obj; m_obj] = [(4, 20); (8, 5); (16, 16); (8, 12); (4, 20); (8, 5); (16, 16); (8, 12)] /\
    all_addresses [m_obj; m_obj] ps =
      [0x8010FFF4; 0x80110008; 0x80110010; 0x80110020; 0x8011002C; 0x80110040; 0x80110050; 0x80110060] .
Proof.
  split; [repeat (constructor; [exact m_well |]); constructor |].
  eexists. split; [vm_compute; reflexivity |]. split; vm_compute; reflexivity.
Qed.

(** The output holds the bytes of the sections, apart from relocated words, and zeros elsewhere. *)
Theorem C53_bytes_partial m labels start fs out f p s x : imported m labels start fs out f p s x ->
  forall k, 0 <= k < se_size s -> (forall r, In r (se_rels s) -> k < r_offset r \/ r_offset r + 4 <= k) ->
  byte_at out (x - start + k) = byte_at (se_data s) k.
Proof. exact (imported_bytes m labels start fs out f p s x). Qed.
Print Assumptions C53_bytes_partial.
Theorem C53_gaps_partial m labels start fs out size ps ok : Forall well_formed fs ->
  relocate m labels start fs = ROk (out, size, ps, ok) ->
  forall k, 0 <= k -> (forall f p s x, In (f, p) (combine fs ps) -> placed_at f p s x -> se_nobits s = false ->
    k < x - start \/ x - start + se_size s <= k) -> byte_at out k = 0.
Proof. intros W R. destruct (relocate_spec _ _ _ _ _ _ _ _ W R) as (_ & _ & _ & _ & G). exact G. Qed.
Print Assumptions C53_gaps_partial.
Example C53_bytes_case :
  imported Mips case_labels m_start [m_obj; m_obj] m_out m_obj (placed_of m_result 0) m_text 0x8010FFF4 /\
  (forall r, In r (se_rels m_text) -> 13 < r_offset r \/ r_offset r + 4 <= 13) /\
  firstn 32 (skipn 18 m_out) = [0x1A; 0; 0x11; 0x80; 1; 2; 3; 4; 5; 0; 0; 0; 0; 0; 0; 0; 0; 0; 0; 0; 0; 0; 0; 0; 0; 0; 0; 0; 0; 0; 0; 0].
Proof.
  split; [exact m_imported |]. split; [| vm_compute; reflexivity].
  intros r I. each I; cbn; lia.
Qed.

(** Objects without relocations can always be imported. *)
Theorem C53_success_partial m labels start fs : Forall well_formed fs ->
  (forall f s, In f fs -> In s (ef_sections f) -> se_rels s = []) ->
  exists out size ps, relocate m labels start fs = ROk (out, size, ps, true).
Proof. exact (import_total m labels start fs). Qed.
Print Assumptions C53_success_partial.
Example C53_success_case : Forall well_formed [mkFile true [m_data; m_bss] m_symbols] /\
  relocate Sh case_labels 0x101 [mkFile true [m_data; m_bss] m_symbols] =
    ROk ([0; 0; 0; 0; 0; 0; 0; 1; 2; 3; 4; 5] ++ repeat 0 31, 43, [mkPlaced ([0; 0; 0; 0; 0; 0; 0; 1; 2; 3; 4; 5] ++ repeat 0 31) 0x12C [(2, 0x108); (3, 0x110)] [0x10A; 0x120; 0x1234] true], true).
Proof. split; [constructor; [well | constructor] | vm_compute; reflexivity]. Qed.

(** Not in general: ELF allows an alignment of 0, which is a division by zero. *)
Theorem C53_alignment_0_refuted :
  ~ (forall m labels start fs, (forall f, In f fs -> ef_symtab f = [] /\ forall s, In s (ef_sections f) ->
        0 <= se_align s /\ se_rels s = [] /\ Z.of_nat (length (se_data s)) = se_size s) ->
      relocate m labels start fs <> RUb).
Proof.
  intros H. apply (H Mips case_labels 0 [mkFile false [mkSec 1 false 1 0 [7] []] []]); [| vm_compute; reflexivity].
  intros f [<- | []]. split; [reflexivity |]. intros s [<- | []]. cbn. split; [lia |]. split; reflexivity.
Qed.
Print Assumptions C53_alignment_0_refuted.

(** * C50: MIPS *)

Theorem C50_words_partial labels start fs out f p s x r a t : imported Mips labels start fs out f p s x ->
  In r (se_rels s) -> refers Mips labels f p r a t -> r_type r = R_MIPS_32 ->
  after f out start x r = u32 (before f s r + a).
Proof. exact (mips_word labels start fs out f p s x r a t). Qed.
Print Assumptions C50_words_partial.
Example C50_words_case :
  imported Mips case_labels m_start [m_obj; m_obj] m_out m_obj (placed_of m_result 0) m_text 0x8010FFF4 /\
  In (mkRel 16 R_MIPS_32 2 0) (se_rels m_text) /\
  refers Mips case_labels m_obj (placed_of m_result 0) (mkRel 16 R_MIPS_32 2 0) 0x8011000A false /\
  before m_obj m_text (mkRel 16 R_MIPS_32 2 0) = 0x10 /\ after m_obj m_out m_start 0x8010FFF4 (mkRel 16 R_MIPS_32 2 0) = 0x8011001A.
Proof.
  split; [exact m_imported |]. split; [cbn; auto 6 |]. split; [apply m_table; cbn; auto |]. split; vm_compute; reflexivity.
Qed.

(** A [lui] and the next [addiu] (or load) together give the address plus what they gave before; when
    they refer to different addresses the import fails. *)
Theorem C50_pairs_partial labels start fs out f p s x pre hi mid lo post a a' t t' :
  imported Mips labels start fs out f p s x -> se_rels s = pre ++ hi :: mid ++ lo :: post ->
  r_type hi = R_MIPS_HI16 -> r_type lo = R_MIPS_LO16 -> Forall (fun r => r_type r <> R_MIPS_LO16) mid ->
  refers Mips labels f p hi a t -> refers Mips labels f p lo a' t' ->
  a = a' /\ after f out start x hi / 65536 = before f s hi / 65536 /\ after f out start x lo / 65536 = before f s lo / 65536 /\
  pair_value (after f out start x hi) (after f out start x lo) = u32 (pair_value (before f s hi) (before f s lo) + a).
Proof. exact (mips_pair labels start fs out f p s x pre hi mid lo post a a' t t'). Qed.
Print Assumptions C50_pairs_partial.
Example C50_pairs_case :
  imported Mips case_labels m_start [m_obj; m_obj] m_out m_obj (placed_of m_result 0) m_text 0x8010FFF4 /\
  se_rels m_text = [] ++ mkRel 0 R_MIPS_HI16 2 0 :: [] ++ mkRel 4 R_MIPS_LO16 2 0 :: [mkRel 8 R_MIPS_26 3 0; mkRel 16 R_MIPS_32 2 0] /\
  refers Mips case_labels m_obj (placed_of m_result 0) (mkRel 0 R_MIPS_HI16 2 0) 0x8011000A false /\
  refers Mips case_labels m_obj (placed_of m_result 0) (mkRel 4 R_MIPS_LO16 2 0) 0x8011000A false /\
  pair_value (before m_obj m_text (mkRel 0 R_MIPS_HI16 2 0)) (before m_obj m_text (mkRel 4 R_MIPS_LO16 2 0)) = 0x8004 /\
  after m_obj m_out m_start 0x8010FFF4 (mkRel 0 R_MIPS_HI16 2 0) = 0x3C048012 /\
  after m_obj m_out m_start 0x8010FFF4 (mkRel 4 R_MIPS_LO16 2 0) = 0x2484800E.
Proof.
  split; [exact m_imported |]. split; [reflexivity |]. split; [apply m_table; cbn; auto |]. split; [apply m_table; cbn; auto |].
  split; [| split]; vm_compute; reflexivity.
Qed.
(** A mismatched pair in an otherwise good object. *)
Example C50_mismatch_case :
  exists out size ps, relocate Mips case_labels 0x1000
    [one false (le [0x3C040000; 0x24840000]) [mkRel 0 R_MIPS_HI16 1 0; mkRel 4 R_MIPS_LO16 2 0]
       [mkSym "p" 0 0 STB_GLOBAL STT_OBJECT 1; mkSym "q" 4 0 STB_GLOBAL STT_OBJECT 1]] = ROk (out, size, ps, false).
Proof. do 3 eexists. vm_compute. reflexivity. Qed.

(** A low half also gets the address when it shares its [lui] with another one. *)
Theorem C50_low_partial labels start fs out f p s x r a t : imported Mips labels start fs out f p s x ->
  In r (se_rels s) -> refers Mips labels f p r a t -> r_type r = R_MIPS_LO16 ->
  after f out start x r / 65536 = before f s r / 65536 /\ after f out start x r mod 65536 = (before f s r + a) mod 65536.
Proof. exact (mips_low labels start fs out f p s x r a t). Qed.
Print Assumptions C50_low_partial.
Example C50_low_case :
  refers Mips case_labels m_obj (placed_of m_result 0) (mkRel 4 R_MIPS_LO16 2 0) 0x8011000A false /\
  before m_obj m_text (mkRel 4 R_MIPS_LO16 2 0) = 0x24848004 /\ after m_obj m_out m_start 0x8010FFF4 (mkRel 4 R_MIPS_LO16 2 0) = 0x2484800E.
Proof. split; [apply m_table; cbn; auto |]. split; vm_compute; reflexivity. Qed.

(** A [lui] without a low half gives the upper half for an [addiu] with the low half of the address. *)
Theorem C50_dangling_partial labels start fs out f p s x pre hi post a t :
  imported Mips labels start fs out f p s x -> se_rels s = pre ++ hi :: post ->
  r_type hi = R_MIPS_HI16 -> Forall (fun r => r_type r <> R_MIPS_LO16) post -> refers Mips labels f p hi a t ->
  after f out start x hi / 65536 = before f s hi / 65536 /\
  u32 (after f out start x hi mod 65536 * 65536 + sext16 a) = u32 (before f s hi mod 65536 * 65536 + a).
Proof. exact (mips_dangling labels start fs out f p s x pre hi post a t). Qed.
Print Assumptions C50_dangling_partial.
Definition dangling_obj := one false (le [0x3C040001]) [mkRel 0 R_MIPS_HI16 1 0] [mkSym "q" 0x8004 0 STB_GLOBAL STT_OBJECT SHN_ABS].
Example C50_dangling_case :
  imported Mips case_labels 0x1000 [dangling_obj] (le [0x3C040002]) dangling_obj (placed_of (relocate Mips case_labels 0x1000 [dangling_obj]) 0) (text_of dangling_obj) 0x1000 /\
  refers Mips case_labels dangling_obj (placed_of (relocate Mips case_labels 0x1000 [dangling_obj]) 0) (mkRel 0 R_MIPS_HI16 1 0) 0x8004 false.
Proof.
  split; [imports |].
  exists (mkSym "q" 0x8004 0 STB_GLOBAL STT_OBJECT SHN_ABS). split; [reflexivity |]. split; [reflexivity |]. split; [discriminate |].
  apply (sa_absolute Mips case_labels dangling_obj _ (mkSym "q" 0x8004 0 STB_GLOBAL STT_OBJECT SHN_ABS)). reflexivity.
Qed.

(** [j] and [jal] keep the opcode; the field is the sum, and they go to the address plus what the field
    says, when that is in the same region as the instruction behind. *)
Theorem C50_jumps_partial labels start fs out f p s x r a t : imported Mips labels start fs out f p s x ->
  In r (se_rels s) -> refers Mips labels f p r a t -> r_type r = R_MIPS_26 ->
  after f out start x r / 67108864 = before f s r / 67108864 /\
  (a mod 4 = 0 -> (a + before f s r mod 67108864 * 4) / 268435456 = (x + r_offset r + 4) / 268435456 ->
   jump_to (x + r_offset r) (after f out start x r) = a + before f s r mod 67108864 * 4).
Proof. exact (mips_jump_to labels start fs out f p s x r a t). Qed.
Print Assumptions C50_jumps_partial.
Example C50_jumps_case :
  imported Mips case_labels m_start [m_obj; m_obj] m_out m_obj (placed_of m_result 0) m_text 0x8010FFF4 /\
  refers Mips case_labels m_obj (placed_of m_result 0) (mkRel 8 R_MIPS_26 3 0) 0x80001000 false /\
  (0x80001000 + before m_obj m_text (mkRel 8 R_MIPS_26 3 0) mod 67108864 * 4) / 268435456 = (0x8010FFF4 + 8 + 4) / 268435456 /\
  after m_obj m_out m_start 0x8010FFF4 (mkRel 8 R_MIPS_26 3 0) = 0x0C000402.
Proof. split; [exact m_imported |]. split; [exact m_puts |]. split; vm_compute; reflexivity. Qed.

(** Not in general: addends in relocations are ignored, *)
Theorem C50_addend_refuted :
  ~ (forall labels start fs out f p s x r a t, imported Mips labels start fs out f p s x ->
      In r (se_rels s) -> refers Mips labels f p r a t -> r_type r = R_MIPS_32 ->
      after f out start x r = u32 (before f s r + r_addend r + a)).
Proof.
  intros H. specialize (H case_labels 0x1000 [rela_obj R_MIPS_32] (le [0x1010]) (rela_obj R_MIPS_32) (placed_of (relocate Mips case_labels 0x1000 [rela_obj R_MIPS_32]) 0)
    (text_of (rela_obj R_MIPS_32)) 0x1000 (mkRel 0 R_MIPS_32 1 4) 0x1000 false).
  assert (E : after (rela_obj R_MIPS_32) (le [0x1010]) 0x1000 0x1000 (mkRel 0 R_MIPS_32 1 4) = 0x1010) by (vm_compute; reflexivity).
  rewrite H in E; [vm_compute in E; discriminate | imports | left; reflexivity | | reflexivity].
  exists (mkSym "d" 0 0 STB_GLOBAL STT_OBJECT 1). split; [reflexivity |]. split; [reflexivity |]. split; [discriminate |].
  apply (sa_section Mips case_labels (rela_obj R_MIPS_32) _ (mkSym "d" 0 0 STB_GLOBAL STT_OBJECT 1) (text_of (rela_obj R_MIPS_32)) 0x1000); [vm_compute; auto | reflexivity].
Qed.
Print Assumptions C50_addend_refuted.
(** references to common symbols get their alignment instead of their address, *)
Theorem C50_common_refuted :
  ~ (forall labels start fs out f p s x r a t, imported Mips labels start fs out f p s x ->
      In r (se_rels s) -> refers_any Mips labels f p r a t -> r_type r = R_MIPS_32 ->
      after f out start x r = u32 (before f s r + a)).
Proof.
  intros H. specialize (H case_labels 0x1000 [common_obj R_MIPS_32] (le [0x14; 0; 0]) (common_obj R_MIPS_32) (placed_of (relocate Mips case_labels 0x1000 [common_obj R_MIPS_32]) 0)
    (text_of (common_obj R_MIPS_32)) 0x1000 (mkRel 0 R_MIPS_32 1 0) 0x1004 false).
  assert (E : after (common_obj R_MIPS_32) (le [0x14; 0; 0]) 0x1000 0x1000 (mkRel 0 R_MIPS_32 1 0) = 0x14) by (vm_compute; reflexivity).
  rewrite H in E; [vm_compute in E; discriminate | imports | left; reflexivity | | reflexivity].
  exists common. split; [reflexivity |]. split; [reflexivity |]. apply (sa_common Mips case_labels (common_obj R_MIPS_32) _ common); [reflexivity | vm_compute; auto].
Qed.
Print Assumptions C50_common_refuted.
(** a pair with the value 0x7FFF8000 overflows an int, *)
Theorem C50_pair_overflow_refuted :
  ~ (forall labels start fs, Forall well_formed fs -> relocate Mips labels start fs <> RUb).
Proof.
  intros H. apply (H case_labels 0x1000 [one false (le [0x3C048000; 0x24848000]) [mkRel 0 R_MIPS_HI16 1 0; mkRel 4 R_MIPS_LO16 1 0] [mkSym "p" 0 0 STB_GLOBAL STT_OBJECT 1]]);
    [constructor; [well | constructor] | vm_compute; reflexivity].
Qed.
Print Assumptions C50_pair_overflow_refuted.
(** and jumps into other regions are not reported. *)
Definition far_obj := one false (le [0x0C000000]) [mkRel 0 R_MIPS_26 1 0] [mkSym "puts" 0 0 STB_GLOBAL 0 0].
Theorem C50_region_refuted :
  ~ (forall labels start fs out f p s x r a t, imported Mips labels start fs out f p s x ->
      In r (se_rels s) -> refers Mips labels f p r a t -> r_type r = R_MIPS_26 -> a mod 4 = 0 ->
      jump_to (x + r_offset r) (after f out start x r) = a + before f s r mod 67108864 * 4).
Proof.
  intros H. specialize (H case_labels 0x1000 [far_obj] (le [0x0C000400]) far_obj (placed_of (relocate Mips case_labels 0x1000 [far_obj]) 0)
    (text_of far_obj) 0x1000 (mkRel 0 R_MIPS_26 1 0) 0x80001000 false).
  assert (E : jump_to (0x1000 + 0) (after far_obj (le [0x0C000400]) 0x1000 0x1000 (mkRel 0 R_MIPS_26 1 0)) = 0x1000) by (vm_compute; reflexivity).
  cbn [r_offset] in H. rewrite H in E; [vm_compute in E; discriminate | imports | left; reflexivity | | reflexivity | reflexivity].
  exists (mkSym "puts" 0 0 STB_GLOBAL 0 0). split; [reflexivity |]. split; [reflexivity |]. split; [discriminate |].
  apply (sa_external Mips case_labels far_obj _ (mkSym "puts" 0 0 STB_GLOBAL 0 0) (mkLabel 0x80001000 false 0)); [reflexivity | discriminate | reflexivity].
Qed.
Print Assumptions C50_region_refuted.

(** * C52: SuperH *)

Theorem C52_words_partial labels start fs out f p s x r a t : imported Sh labels start fs out f p s x ->
  In r (se_rels s) -> refers Sh labels f p r a t ->
  (r_type r = R_SH_DIR32 -> after f out start x r = u32 (before f s r + a + r_addend r)) /\
  (r_type r = R_SH_REL32 -> after f out start x r = u32 (before f s r + a + r_addend r - (x + r_offset r))).
Proof. exact (sh_words labels start fs out f p s x r a t). Qed.
Print Assumptions C52_words_partial.
Example C52_words_case :
  imported Sh case_labels s_start [s_obj] s_out s_obj (placed_of s_result 0) s_text 0x6004004 /\
  refers Sh case_labels s_obj (placed_of s_result 0) (mkRel 0 R_SH_DIR32 1 4) 0x600400C false /\
  refers Sh case_labels s_obj (placed_of s_result 0) (mkRel 4 R_SH_REL32 1 0) 0x600400C false /\
  se_rels s_text = [mkRel 0 R_SH_DIR32 1 4; mkRel 4 R_SH_REL32 1 0] /\
  s_out = [0; 0] ++ be [0x6004030; 0x14; 0].
Proof. split; [exact s_imported |]. split; [apply s_here |]. split; [apply s_here |]. split; vm_compute; reflexivity. Qed.
Theorem C52_common_refuted :
  ~ (forall labels start fs out f p s x r a t, imported Sh labels start fs out f p s x ->
      In r (se_rels s) -> refers_any Sh labels f p r a t -> r_type r = R_SH_DIR32 ->
      after f out start x r = u32 (before f s r + a + r_addend r)).
Proof.
  intros H. specialize (H case_labels 0x1000 [common_obj R_SH_DIR32] (le [0x14; 0; 0]) (common_obj R_SH_DIR32) (placed_of (relocate Sh case_labels 0x1000 [common_obj R_SH_DIR32]) 0)
    (text_of (common_obj R_SH_DIR32)) 0x1000 (mkRel 0 R_SH_DIR32 1 0) 0x1004 false).
  assert (E : after (common_obj R_SH_DIR32) (le [0x14; 0; 0]) 0x1000 0x1000 (mkRel 0 R_SH_DIR32 1 0) = 0x14) by (vm_compute; reflexivity).
  rewrite H in E; [vm_compute in E; discriminate | imports | left; reflexivity | | reflexivity].
  exists common. split; [reflexivity |]. split; [reflexivity |]. apply (sa_common Sh case_labels (common_obj R_SH_DIR32) _ common); [reflexivity | vm_compute; auto].
Qed.
Print Assumptions C52_common_refuted.

(** * C51: ARM *)

(** Words; those that refer to Thumb functions get bit 0. *)
Theorem C51_words_partial arm9 labels start fs out f p s x r a t : imported (Arm arm9) labels start fs out f p s x ->
  In r (se_rels s) -> refers (Arm arm9) labels f p r a t -> r_type r = R_ARM_ABS32 \/ r_type r = R_ARM_TARGET1 ->
  after f out start x r = if t then u32 (before f s r + a) / 2 * 2 + 1 else u32 (before f s r + a).
Proof. exact (arm_word arm9 labels start fs out f p s x r a t). Qed.
Print Assumptions C51_words_partial.
Example C51_words_case :
  imported (Arm true) case_labels a_start [a_obj] a_out a_obj (placed_of a_result 0) a_text 0x2000000 /\
  In (mkRel 8 R_ARM_ABS32 2 0) (se_rels a_text) /\
  refers (Arm true) case_labels a_obj (placed_of a_result 0) (mkRel 8 R_ARM_ABS32 2 0) 0x2000012 true /\
  after a_obj a_out a_start 0x2000000 (mkRel 8 R_ARM_ABS32 2 0) = 0x2000013.
Proof. split; [exact a_imported |]. split; [cbn; auto |]. split; [exact a_f |]. vm_compute. reflexivity. Qed.

(** ARM branches go to the address plus what they said before: a call of a Thumb function becomes [blx], all
    others keep kind and condition.  Thumb targets are accepted only for unconditional calls on the ARM9. *)
Theorem C51_branches_partial arm9 labels start fs out f p s x r a t k c t0 :
  imported (Arm arm9) labels start fs out f p s x -> In r (se_rels s) -> refers (Arm arm9) labels f p r a t ->
  r_type r = R_ARM_CALL \/ r_type r = R_ARM_JUMP24 ->
  (x + r_offset r) mod 4 = 0 -> ArmSpec.decode_branch 0 (before f s r) = Some (k, c, t0) -> k <> ArmSpec.BrBLX ->
  ArmSpec.decode_branch (x + r_offset r) (after f out start x r) =
    Some (if t then ArmSpec.BrBLX else k, if t then 15 else c, u32 (a + t0)) /\
  a mod (if t then 2 else 4) = 0 /\
  (t = true -> r_type r = R_ARM_CALL /\ arm9 = true /\ c = 14).
Proof. exact (arm_branch_ok arm9 labels start fs out f p s x r a t k c t0). Qed.
Print Assumptions C51_branches_partial.
Example C51_branches_case :
  imported (Arm true) case_labels a_start [a_obj] a_out a_obj (placed_of a_result 0) a_text 0x2000000 /\
  (* bl thumb *)
  refers (Arm true) case_labels a_obj (placed_of a_result 0) (mkRel 0 R_ARM_CALL 3 0) 0x2001002 true /\
  ArmSpec.decode_branch 0 (before a_obj a_text (mkRel 0 R_ARM_CALL 3 0)) = Some (ArmSpec.BrBL, 14, 0) /\
  ArmSpec.decode_branch 0x2000000 (after a_obj a_out a_start 0x2000000 (mkRel 0 R_ARM_CALL 3 0)) = Some (ArmSpec.BrBLX, 15, 0x2001002) /\
  (* beq arm *)
  refers (Arm true) case_labels a_obj (placed_of a_result 0) (mkRel 4 R_ARM_JUMP24 4 0) 0x2001100 false /\
  ArmSpec.decode_branch 0 (before a_obj a_text (mkRel 4 R_ARM_JUMP24 4 0)) = Some (ArmSpec.BrB, 0, 0) /\
  ArmSpec.decode_branch 0x2000004 (after a_obj a_out a_start 0x2000000 (mkRel 4 R_ARM_JUMP24 4 0)) = Some (ArmSpec.BrB, 0, 0x2001100).
Proof.
  split; [exact a_imported |]. split; [apply a_ext_thumb |]. split; [vm_compute; reflexivity |]. split; [vm_compute; reflexivity |].
  split; [apply a_ext_arm |]. split; vm_compute; reflexivity.
Qed.

(** Thumb calls likewise; a call of an ARM function becomes [blx].  The word consists of the halfwords in
    little endian order. *)
Theorem C51_thumb_calls_partial arm9 labels start fs out f p s x r a t t0 :
  imported (Arm arm9) labels start fs out f p s x -> In r (se_rels s) -> refers (Arm arm9) labels f p r a t ->
  r_type r = R_ARM_THM_CALL ->
  ThumbSpec.thumb_kind (halves (before f s r)) = Some ThumbSpec.KCall -> ThumbSpec.thumb_target 0 (halves (before f s r)) = Some t0 ->
  (x + r_offset r) mod (if t then 2 else 4) = 0 -> t0 mod (if t then 2 else 4) = 0 ->
  ThumbSpec.thumb_target (x + r_offset r) (halves (after f out start x r)) = Some (u32 (a + t0)) /\
  ThumbSpec.thumb_kind (halves (after f out start x r)) = Some (if t then ThumbSpec.KCall else ThumbSpec.KCallX) /\
  a mod (if t then 2 else 4) = 0 /\ (t = false -> arm9 = true).
Proof. exact (thumb_call_ok arm9 labels start fs out f p s x r a t t0). Qed.
Print Assumptions C51_thumb_calls_partial.
Example C51_thumb_calls_case :
  imported (Arm true) case_labels a_start [a_obj] a_out a_obj (placed_of a_result 0) a_thumb 0x2000010 /\
  refers (Arm true) case_labels a_obj (placed_of a_result 0) (mkRel 2 R_ARM_THM_CALL 3 0) 0x2001002 true /\
  ThumbSpec.thumb_kind (halves (before a_obj a_thumb (mkRel 2 R_ARM_THM_CALL 3 0))) = Some ThumbSpec.KCall /\
  ThumbSpec.thumb_target 0 (halves (before a_obj a_thumb (mkRel 2 R_ARM_THM_CALL 3 0))) = Some 0 /\
  ThumbSpec.thumb_target 0x2000012 (halves (after a_obj a_out a_start 0x2000010 (mkRel 2 R_ARM_THM_CALL 3 0))) = Some 0x2001002 /\
  refers (Arm true) case_labels a_obj (placed_of a_result 0) (mkRel 8 R_ARM_THM_CALL 4 0) 0x2001100 false /\
  ThumbSpec.thumb_kind (halves (after a_obj a_out a_start 0x2000010 (mkRel 8 R_ARM_THM_CALL 4 0))) = Some ThumbSpec.KCallX /\
  ThumbSpec.thumb_target 0x2000018 (halves (after a_obj a_out a_start 0x2000010 (mkRel 8 R_ARM_THM_CALL 4 0))) = Some 0x2001100.
Proof.
  split; [exact a_thumb_imported |]. split; [apply a_ext_thumb |]. split; [vm_compute; reflexivity |]. split; [vm_compute; reflexivity |].
  split; [vm_compute; reflexivity |]. split; [apply a_ext_arm |]. split; vm_compute; reflexivity.
Qed.

(** Not in general: a call of an ARM function from an address that is not word aligned becomes something else, *)
Definition blx_obj := one false ([0; 0] ++ le [0xFFFEF7FF] ++ [0; 0]) [mkRel 2 R_ARM_THM_CALL 1 0] [mkSym "arm" 0 0 STB_GLOBAL 0 0].
Definition blx_out := out_of (relocate (Arm true) case_labels 0x2000000 [blx_obj]).
Lemma blx_refers : refers (Arm true) case_labels blx_obj (placed_of (relocate (Arm true) case_labels 0x2000000 [blx_obj]) 0) (mkRel 2 R_ARM_THM_CALL 1 0) 0x2001100 false.
Proof.
  exists (mkSym "arm" 0 0 STB_GLOBAL 0 0). split; [reflexivity |]. split; [reflexivity |]. split; [discriminate |].
  apply (sa_external (Arm true) case_labels blx_obj _ (mkSym "arm" 0 0 STB_GLOBAL 0 0) (mkLabel 0x2001100 false 0)); [reflexivity | discriminate | reflexivity].
Qed.
Theorem C51_thumb_blx_refuted :
  ~ (forall arm9 labels start fs out f p s x r a t t0,
      imported (Arm arm9) labels start fs out f p s x -> In r (se_rels s) -> refers (Arm arm9) labels f p r a t ->
      r_type r = R_ARM_THM_CALL -> ef_big f = false ->
      ThumbSpec.thumb_kind (halves (before f s r)) = Some ThumbSpec.KCall -> ThumbSpec.thumb_target 0 (halves (before f s r)) = Some t0 ->
      (x + r_offset r) mod 2 = 0 -> t0 mod (if t then 2 else 4) = 0 ->
      ThumbSpec.thumb_target (x + r_offset r) (halves (after f out start x r)) = Some (u32 (a + t0))).
Proof.
  intros H. specialize (H true case_labels 0x2000000 [blx_obj] blx_out blx_obj (placed_of (relocate (Arm true) case_labels 0x2000000 [blx_obj]) 0) (text_of blx_obj) 0x2000000 (mkRel 2 R_ARM_THM_CALL 1 0) 0x2001100 false 0).
  assert (E : ThumbSpec.thumb_target (0x2000000 + 2) (halves (after blx_obj blx_out 0x2000000 0x2000000 (mkRel 2 R_ARM_THM_CALL 1 0))) = None) by (vm_compute; reflexivity).
  cbn [r_offset] in H. rewrite H in E; [discriminate | imports | left; reflexivity | exact blx_refers | reflexivity .. ].
Qed.
Print Assumptions C51_thumb_blx_refuted.
(** calls in big endian objects are relocated as if the halfwords were swapped, *)
Definition big_obj := one true (be [0xF7FFFFFE]) [mkRel 0 R_ARM_THM_CALL 1 0] [mkSym "thumb" 0 0 STB_GLOBAL 0 0].
Definition big_out := out_of (relocate (Arm true) case_labels 0x2000000 [big_obj]).
Theorem C51_thumb_big_endian_refuted :
  ~ (forall arm9 labels start fs out f p s x r a t t0,
      imported (Arm arm9) labels start fs out f p s x -> In r (se_rels s) -> refers (Arm arm9) labels f p r a t ->
      r_type r = R_ARM_THM_CALL -> ef_big f = true -> (x + r_offset r) mod 4 = 0 ->
      ThumbSpec.thumb_target 0 [half_at true (se_data s) (r_offset r); half_at true (se_data s) (r_offset r + 2)] = Some t0 ->
      ThumbSpec.thumb_target (x + r_offset r) [half_at true out (x - start + r_offset r); half_at true out (x - start + r_offset r + 2)] = Some (u32 (a + t0))).
Proof.
  intros H. specialize (H true case_labels 0x2000000 [big_obj] big_out big_obj (placed_of (relocate (Arm true) case_labels 0x2000000 [big_obj]) 0) (text_of big_obj) 0x2000000 (mkRel 0 R_ARM_THM_CALL 1 0) 0x2001002 true 0).
  assert (E : ThumbSpec.thumb_target (0x2000000 + 0) [half_at true big_out (0x2000000 - 0x2000000 + 0); half_at true big_out (0x2000000 - 0x2000000 + 0 + 2)] <> Some 0x2001002) by (vm_compute; discriminate).
  cbn [r_offset] in H. apply E, H; [imports | left; reflexivity | | reflexivity .. ].
  exists (mkSym "thumb" 0 0 STB_GLOBAL 0 0). split; [reflexivity |]. split; [reflexivity |]. split; [discriminate |].
  apply (sa_external (Arm true) case_labels big_obj _ (mkSym "thumb" 0 0 STB_GLOBAL 0 0) (mkLabel 0x2001002 false 1)); [reflexivity | discriminate | reflexivity].
Qed.
Print Assumptions C51_thumb_big_endian_refuted.
(** a [blx] whose target turns out to be ARM code stays a [blx], *)
Definition stay_obj := one false (le [0xFAFFFFFE]) [mkRel 0 R_ARM_CALL 1 0] [mkSym "arm" 0 0 STB_GLOBAL 0 0].
Definition stay_out := out_of (relocate (Arm true) case_labels 0x2000000 [stay_obj]).
Theorem C51_blx_to_arm_refuted :
  ~ (forall arm9 labels start fs out f p s x r a t k c t0,
      imported (Arm arm9) labels start fs out f p s x -> In r (se_rels s) -> refers (Arm arm9) labels f p r a t ->
      r_type r = R_ARM_CALL -> (x + r_offset r) mod 4 = 0 -> ArmSpec.decode_branch 0 (before f s r) = Some (k, c, t0) ->
      exists k' c', ArmSpec.decode_branch (x + r_offset r) (after f out start x r) = Some (k', c', u32 (a + t0)) /\ (k' = ArmSpec.BrBLX <-> t = true)).
Proof.
  intros H. specialize (H true case_labels 0x2000000 [stay_obj] stay_out stay_obj (placed_of (relocate (Arm true) case_labels 0x2000000 [stay_obj]) 0) (text_of stay_obj) 0x2000000 (mkRel 0 R_ARM_CALL 1 0) 0x2001100 false ArmSpec.BrBLX 15 0).
  assert (E : ArmSpec.decode_branch (0x2000000 + 0) (after stay_obj stay_out 0x2000000 0x2000000 (mkRel 0 R_ARM_CALL 1 0)) = Some (ArmSpec.BrBLX, 15, 0x2001100)) by (vm_compute; reflexivity).
  cbn [r_offset] in H. rewrite E in H. destruct H as (k' & c' & H1 & H2); [imports | left; reflexivity | | reflexivity .. |].
  - exists (mkSym "arm" 0 0 STB_GLOBAL 0 0). split; [reflexivity |]. split; [reflexivity |]. split; [discriminate |].
    apply (sa_external (Arm true) case_labels stay_obj _ (mkSym "arm" 0 0 STB_GLOBAL 0 0) (mkLabel 0x2001100 false 0)); [reflexivity | discriminate | reflexivity].
  - assert (K : k' = ArmSpec.BrBLX) by congruence. apply H2 in K. discriminate.
Qed.
Print Assumptions C51_blx_to_arm_refuted.
(** addends in relocations are ignored, references to common symbols get their alignment, *)
Theorem C51_addend_refuted :
  ~ (forall arm9 labels start fs out f p s x r a t, imported (Arm arm9) labels start fs out f p s x ->
      In r (se_rels s) -> refers (Arm arm9) labels f p r a t -> r_type r = R_ARM_ABS32 -> t = false ->
      after f out start x r = u32 (before f s r + r_addend r + a)).
Proof.
  intros H. specialize (H true case_labels 0x1000 [rela_obj R_ARM_ABS32] (le [0x1010]) (rela_obj R_ARM_ABS32) (placed_of (relocate (Arm true) case_labels 0x1000 [rela_obj R_ARM_ABS32]) 0)
    (text_of (rela_obj R_ARM_ABS32)) 0x1000 (mkRel 0 R_ARM_ABS32 1 4) 0x1000 false).
  assert (E : after (rela_obj R_ARM_ABS32) (le [0x1010]) 0x1000 0x1000 (mkRel 0 R_ARM_ABS32 1 4) = 0x1010) by (vm_compute; reflexivity).
  rewrite H in E; [vm_compute in E; discriminate | imports | left; reflexivity | | reflexivity | reflexivity].
  exists (mkSym "d" 0 0 STB_GLOBAL STT_OBJECT 1). split; [reflexivity |]. split; [reflexivity |]. split; [discriminate |].
  apply (sa_section (Arm true) case_labels (rela_obj R_ARM_ABS32) _ (mkSym "d" 0 0 STB_GLOBAL STT_OBJECT 1) (text_of (rela_obj R_ARM_ABS32)) 0x1000); [vm_compute; auto | reflexivity].
Qed.
Print Assumptions C51_addend_refuted.
Theorem C51_common_refuted :
  ~ (forall arm9 labels start fs out f p s x r a t, imported (Arm arm9) labels start fs out f p s x ->
      In r (se_rels s) -> refers_any (Arm arm9) labels f p r a t -> r_type r = R_ARM_ABS32 -> t = false ->
      after f out start x r = u32 (before f s r + a)).
Proof.
  intros H. specialize (H true case_labels 0x1000 [common_obj R_ARM_ABS32] (le [0x14; 0; 0]) (common_obj R_ARM_ABS32) (placed_of (relocate (Arm true) case_labels 0x1000 [common_obj R_ARM_ABS32]) 0)
    (text_of (common_obj R_ARM_ABS32)) 0x1000 (mkRel 0 R_ARM_ABS32 1 0) 0x1004 false).
  assert (E : after (common_obj R_ARM_ABS32) (le [0x14; 0; 0]) 0x1000 0x1000 (mkRel 0 R_ARM_ABS32 1 0) = 0x14) by (vm_compute; reflexivity).
  rewrite H in E; [vm_compute in E; discriminate | imports | left; reflexivity | | reflexivity | reflexivity].
  exists common. split; [reflexivity |]. split; [reflexivity |]. apply (sa_common (Arm true) case_labels (common_obj R_ARM_ABS32) _ common); [reflexivity | vm_compute; auto].
Qed.
Print Assumptions C51_common_refuted.
(** and the distance of branches to targets half the address space away overflows. *)
Theorem C51_distance_refuted :
  ~ (forall arm9 labels start fs, Forall well_formed fs -> relocate (Arm arm9) labels start fs <> RUb).
Proof.
  intros H. apply (H true case_labels 0x1000 [one false (le [0xEBFFFFFE]) [mkRel 0 R_ARM_CALL 1 0] [mkSym "p" 0x80000000 0 STB_GLOBAL 0 SHN_ABS]]);
    [constructor; [well | constructor] | vm_compute; reflexivity].
Qed.
Print Assumptions C51_distance_refuted.

(** * C69: exported symbols *)

(** The value of an exported symbol is the address that references to it get. *)
Theorem C69_exported_partial m labels start fs out size ps ok f p y v a t : Forall well_formed fs ->
  relocate m labels start fs = ROk (out, size, ps, ok) -> In (f, p) (combine fs ps) ->
  In (y, v) (combine (filter is_exported (ef_symtab f)) (p_symbols p)) -> sy_shndx y <> SHN_COMMON ->
  symbol_address m labels f p y a t -> v = a.
Proof. exact (exported_address m labels start fs out size ps ok f p y v a t). Qed.
Print Assumptions C69_exported_partial.
(** Every exported symbol gets one. *)
Theorem C69_all_exported_partial m labels start fs out size ps ok f p : Forall well_formed fs ->
  relocate m labels start fs = ROk (out, size, ps, ok) -> In (f, p) (combine fs ps) ->
  length (p_symbols p) = length (filter is_exported (ef_symtab f)).
Proof. exact (exported_all m labels start fs out size ps ok f p). Qed.
Print Assumptions C69_all_exported_partial.
Example C69_exported_case :
  let p := placed_of m_result 1 in
  Forall well_formed [m_obj; m_obj] /\
  map sy_name (filter is_exported (ef_symtab m_obj)) = ["table"; "buf"; "abs"]%string /\ p_symbols p = [0x80110042; 0x80110060; 0x1234] /\
  symbol_address Mips case_labels m_obj p (mkSym "table" 2 3 STB_GLOBAL STT_OBJECT 2) 0x80110042 false /\
  symbol_address Mips case_labels m_obj p (mkSym "abs" 0x1234 0 STB_WEAK 0 SHN_ABS) 0x1234 false.
Proof.
  split; [repeat (constructor; [exact m_well |]); constructor |]. split; [reflexivity |]. split; [vm_compute; reflexivity |]. split.
  - apply (sa_section Mips case_labels m_obj _ (mkSym "table" 2 3 STB_GLOBAL STT_OBJECT 2) m_data 0x80110040); [vm_compute; auto | reflexivity].
  - apply (sa_absolute Mips case_labels m_obj _ (mkSym "abs" 0x1234 0 STB_WEAK 0 SHN_ABS)). reflexivity.
Qed.
(** References to common symbols disagree with their values. *)
Theorem C69_common_refuted :
  ~ (forall m labels start fs out f p s x r y v, imported m labels start fs out f p s x -> In r (se_rels s) ->
      nth_error (ef_symtab f) (Z.to_nat (r_sym r)) = Some y -> In (y, v) (combine (filter is_exported (ef_symtab f)) (p_symbols p)) ->
      m = Mips -> r_type r = R_MIPS_32 -> after f out start x r = u32 (before f s r + v)).
Proof.
  intros H. specialize (H Mips case_labels 0x1000 [common_obj R_MIPS_32] (le [0x14; 0; 0]) (common_obj R_MIPS_32) (placed_of (relocate Mips case_labels 0x1000 [common_obj R_MIPS_32]) 0)
    (text_of (common_obj R_MIPS_32)) 0x1000 (mkRel 0 R_MIPS_32 1 0) common 0x1004).
  assert (E : after (common_obj R_MIPS_32) (le [0x14; 0; 0]) 0x1000 0x1000 (mkRel 0 R_MIPS_32 1 0) = 0x14) by (vm_compute; reflexivity).
  rewrite H in E; [vm_compute in E; discriminate | imports | left; reflexivity | reflexivity | vm_compute; auto | reflexivity | reflexivity].
Qed.
Print Assumptions C69_common_refuted.
