(** Properties of loading, patching and saving ELF programs. *)

Require Import ZArith Lia Bool List Permutation.
Require Import Verif.Ints Verif.Res Verif.BytesSpec Verif.ElfModel Verif.PsxModel Verif.ElfReadModel Verif.ElfReadSpec.
Require Import Verif.ElfSaveModel Verif.ElfSaveSpec Verif.ElfSaveProofs Verif.ElfSaveEnd Verif.ElfSaveLoad Verif.ElfSaveWrite Verif.ElfSaveMain Verif.ElfSaveCases.
Import ListNotations.
Local Open Scope Z_scope.

(** * C86: a program that is loaded and saved is the same program

    For every program whose segments each have a section of their own, for every order of the sections after sorting, and for
    every order of the parts: the saved file is again a program, with the same header, segments, bytes, sections and places of
    sections in segments; only the places in the file may be others. *)
Theorem C86_kept_partial big d h gs ss f f' order :
  program big d h gs ss -> populated (map fst gs) ss -> roomy h -> load_elf d = ROk f -> reordered f f' ->
  Permutation order [SegmentTable; SectionTable; Segments; LooseSections] -> size (save order f') < 2147483648 ->
  exists h' gs' ss', program big (save order f') h' gs' ss' /\ kept d h gs ss (save order f') h' gs' ss'.
Proof. exact (program_saved big d h gs ss f f' order). Qed.
Print Assumptions C86_kept_partial.
Example C86_kept_case : program false two_d two_h two_gs two_ss /\ populated (map fst two_gs) two_ss /\ roomy two_h /\ load_elf two_d = ROk two_f /\ reordered two_f two_f /\
  Permutation two_order [SegmentTable; SectionTable; Segments; LooseSections] /\ size (save two_order two_f) < 2147483648 /\ save two_order two_f <> two_d.
Proof.
  split; [exact two_program |]. split; [exact two_populated |]. split; [exact two_roomy |]. split; [exact two_loads |]. split; [apply reordered_refl |]. split; [exact two_all |]. split; [exact two_saved_small |].
  intros E. assert (X : size (save two_order two_f) = size two_d) by (rewrite E; reflexivity). vm_compute in X. discriminate X.
Qed.

(** The sections of two such files have the same bytes. *)
Theorem C86_sections big d h gs ss d' h' gs' ss' : program big d h gs ss -> program big d' h' gs' ss' -> kept d h gs ss d' h' gs' ss' ->
  forall i s s', nth_error ss i = Some s -> nth_error ss' i = Some s' -> has_bits s = true -> section_bytes d' s' = section_bytes d s.
Proof. exact (sections_bytes big d h gs ss d' h' gs' ss'). Qed.
Print Assumptions C86_sections.
Example C86_sections_case : section_bytes two_d two_s0 = two_x0 /\ section_bytes two_d two_s2 = [90; 91; 92; 93] /\
  section_bytes (save two_order two_f) (with_offset 128 two_s0) = two_x0 /\ section_bytes (save two_order two_f) (with_offset 152 two_s2) = [90; 91; 92; 93].
Proof. vm_compute. repeat split. Qed.

(** Refuted without sections: the bytes of a segment that has none are not in the saved file. *)
Theorem C86_refuted : exists big d h gs ss f order, program big d h gs ss /\ roomy h /\ load_elf d = ROk f /\
  Permutation order [SegmentTable; SectionTable; Segments; LooseSections] /\ size (save order f) < 2147483648 /\
  ~ exists h' gs' ss', program big (save order f) h' gs' ss' /\ kept d h gs ss (save order f) h' gs' ss'.
Proof.
  exists true, bare_d, bare_h, bare_gs, [], bare_f, bare_order. split; [exact bare_program |]. split; [split; vm_compute; discriminate |]. split; [exact bare_loads |]. split; [apply perm_swap |].
  split; [vm_compute; reflexivity | exact bare_lost].
Qed.
Print Assumptions C86_refuted.

(** Refuted: a segment whose place in the file and address agree up to its alignment, as the format wants it, is saved at a place
    where they do not. *)
Theorem C86_alignment_refuted : exists big d h gs ss f order, program big d h gs ss /\ populated (map fst gs) ss /\ roomy h /\ load_elf d = ROk f /\
  Permutation order [SegmentTable; SectionTable; Segments; LooseSections] /\
  (forall g x, In (g, x) gs -> (p_offset g - p_vaddr g) mod p_align g = 0) /\
  forall h' gs' ss' g' x', program big (save order f) h' gs' ss' -> nth_error gs' 0 = Some (g', x') -> (p_offset g' - 0x1100) mod 0x1000 <> 0.
Proof.
  exists false, two_d, two_h, two_gs, two_ss, two_f, two_order. split; [exact two_program |]. split; [exact two_populated |]. split; [exact two_roomy |]. split; [exact two_loads |]. split; [exact two_all |]. split.
  - intros g x [E | [E | []]]; injection E as <- <-; reflexivity.
  - intros h' gs' ss' g' x' P G. rewrite (two_moved h' gs' ss' g' x' P G). vm_compute. discriminate.
Qed.
Print Assumptions C86_alignment_refuted.

(** * C87: patches of a program are in the saved file at their addresses, and nothing else is changed

    [patches]: [.org] with data after it, any number of times.  If there was no error, the memory of the saved program is the
    memory of the loaded one with the data stored in order. *)
Theorem C87_patched_partial big d h gs ss f f' m ps m' order :
  program big d h gs ss -> populated (map fst gs) ss -> roomy h -> separate gs -> load_elf d = ROk f -> reordered f f' ->
  load_program f' = Some m -> patches m ps = ROk (Some m') ->
  Permutation order [SegmentTable; SectionTable; Segments; LooseSections] -> size (save order (pf_elf m')) < 2147483648 ->
  exists gs1 h' gs' ss', map fst gs1 = map fst gs /\ program big (save order (pf_elf m')) h' gs' ss' /\ kept d h gs1 ss (save order (pf_elf m')) h' gs' ss' /\
    forall b, memory gs' b = patched ps (memory gs) b.
Proof. exact (program_patched big d h gs ss f f' m ps m' order). Qed.
Print Assumptions C87_patched_partial.
Example C87_patched_case : separate two_gs /\ load_program two_f = Some two_m /\ patches two_m two_patches = ROk (Some two_patched) /\ size (save two_order (pf_elf two_patched)) < 2147483648 /\
  map (patched two_patches (memory two_gs)) [0x1101; 0x1102; 0x1104; 0x1105; 0x1106; 0x1110; 0x1112; 0x1118] = [Some 2; Some 50; Some 70; Some 53; Some 7; Some 60; Some 19; None].
Proof. split; [exact two_separate |]. split; [exact two_opens |]. split; [exact two_patches_done |]. split; [exact two_patched_small |]. vm_compute. reflexivity. Qed.

(** When there is an error, for every state of a program: exactly if the first address is in no section of its segment, or the
    address behind the data is not.  Without an error the data is stored, exactly if it is in one segment. *)
Theorem C87_outcome_partial d h ss gs m a y : rep d h gs ss (pf_elf m) -> sized gs -> well gs m -> (forall k g x, nth_error gs k = Some (g, x) -> fine_phdr g) -> 0 <= a < 4294967296 ->
  (outcome_of (patch m a y) = Done <-> (exists k g x, mapped gs ss a k /\ nth_error gs k = Some (g, x) /\ a + size y <= p_vaddr g + size x) /\ exists k', mapped gs ss (a + size y) k') /\
  (outcome_of (patch m a y) = Refused <-> (forall k, ~ mapped gs ss a k) \/ (forall k, ~ mapped gs ss (a + size y) k)).
Proof. exact (patch_outcome d h ss gs m a y). Qed.
Print Assumptions C87_outcome_partial.
(** The state after loading and after every patch is one of these. *)
Theorem C87_states d h ss gs m a y m' : rep d h gs ss (pf_elf m) -> sized gs -> patch m a y = ROk (Some m') ->
  exists gs', rep d h gs' ss (pf_elf m') /\ sized gs' /\ map fst gs' = map fst gs /\ well gs' m'.
Proof. exact (well_patch d h ss gs m a y m'). Qed.
Print Assumptions C87_states.
Theorem C87_start big d h gs ss f f' m : program big d h gs ss -> load_elf d = ROk f -> reordered f f' -> load_program f' = Some m -> rep d h gs ss (pf_elf m) /\ sized gs /\ well gs m.
Proof.
  intros P L O E. assert (R := loaded_program big d h gs ss f f' P L O). split; [rewrite (load_program_elf _ _ E); exact R |]. split; [exact (program_sized _ _ _ _ _ P) | exact (well_loaded d h ss gs f' m R E)].
Qed.
Print Assumptions C87_start.
Example C87_outcome_case : rep two_d two_h two_gs two_ss (pf_elf two_m) /\ sized two_gs /\ well two_gs two_m /\
  map (fun p => outcome_of (patch two_m (fst p) (snd p))) [(0x1100, [1; 2]); (0x1117, [1]); (0x110C, [1; 2; 3; 4; 5]); (0x10FF, [1; 2])] = [Done; Refused; Broken; Refused].
Proof.
  destruct (C87_start false two_d two_h two_gs two_ss two_f two_f two_m two_program two_loads (reordered_refl two_f) two_opens) as (A & B & C). split; [exact A |]. split; [exact B |]. split; [exact C |]. vm_compute. reflexivity.
Qed.

(** Data that is written in parts is the same as data written at once. *)
Theorem C87_parts m y z : write m (y ++ z) = do r <- write m y; write (snd r) z.
Proof. exact (write_app m y z). Qed.
Print Assumptions C87_parts.
Example C87_parts_case : exists m', write two_m [1; 2; 3] = ROk (true, m') /\ pf_offset m' = 3.
Proof. eexists. split; [vm_compute; reflexivity | reflexivity]. Qed.

(** Refuted: data up to the last byte of a section, and of its segment, is an error. *)
Theorem C87_end_refuted : exists big d h gs ss f m a y s, program big d h gs ss /\ load_elf d = ROk f /\ load_program f = Some m /\
  mapped gs ss a 1 /\ nth_error ss 2 = Some s /\ sh_addr s <= a /\ a + size y = sh_addr s + sh_size s /\ patch m a y = ROk None.
Proof.
  exists false, two_d, two_h, two_gs, two_ss, two_f, two_m, 0x1114, [1; 2; 3; 4], two_s1. split; [exact two_program |]. split; [exact two_loads |]. split; [exact two_opens |]. split.
  - exists two_g1, two_x1, two_s1. split; [reflexivity |]. split; [split; vm_compute; [discriminate | reflexivity] |]. split.
    + intros j g' x' J G. destruct j as [| j]; [injection G as <- <-; intros (_ & I); vm_compute in I; discriminate I | lia].
    + split; [right; right; left; reflexivity |]. split; [vm_compute; reflexivity |]. split; vm_compute; [discriminate | reflexivity].
  - split; [reflexivity |]. split; [vm_compute; discriminate |]. split; vm_compute; reflexivity.
Qed.
Print Assumptions C87_end_refuted.
(** Refuted: data over the end of a segment, where another begins, is not an error, and is written behind the end of the memory of
    the first. *)
Theorem C87_across_refuted : exists big d h gs ss f m a y, program big d h gs ss /\ separate gs /\ load_elf d = ROk f /\ load_program f = Some m /\ patch m a y = RUb.
Proof.
  exists false, two_d, two_h, two_gs, two_ss, two_f, two_m, 0x110C, [1; 2; 3; 4; 5; 6]. split; [exact two_program |]. split; [exact two_separate |]. split; [exact two_loads |]. split; [exact two_opens |]. vm_compute. reflexivity.
Qed.
Print Assumptions C87_across_refuted.
(** Refuted: a section that is in no segment can be reached, but what is written there is lost, without an error. *)
Theorem C87_loose_refuted : exists big d h gs ss f m a m', program big d h gs ss /\ load_elf d = ROk f /\ load_program f = Some m /\ seekPhysical m a = (true, m') /\
  forall y, write m' y = ROk (false, m').
Proof.
  exists false, two_d, two_h, two_gs, two_ss, two_f, two_m, 0x118, (mkProgram two_f None (Some 1%nat) 0). split; [exact two_program |]. split; [exact two_loads |]. split; [exact two_opens |]. split; [vm_compute; reflexivity |].
  intros y. reflexivity.
Qed.
Print Assumptions C87_loose_refuted.

(** * C88: positions in a program are the addresses that were asked for *)
Theorem C88_virtual_partial d h ss gs m a : rep d h gs ss (pf_elf m) -> (forall k g x, nth_error gs k = Some (g, x) -> fine_phdr g) -> 0 <= a < 4294967296 ->
  (fst (seekVirtual m a) = true <-> exists k, mapped gs ss a k) /\
  (fst (seekVirtual m a) = true -> getVirtualAddress (snd (seekVirtual m a)) = ROk (Some a)) /\
  (fst (seekVirtual m a) = false -> snd (seekVirtual m a) = m).
Proof. exact (virtual_spec d h ss gs m a). Qed.
Print Assumptions C88_virtual_partial.
Example C88_virtual_case : rep two_d two_h two_gs two_ss (pf_elf two_m) /\ map (fun a => fst (seekVirtual two_m a)) [0x10FF; 0x1100; 0x110F; 0x1110; 0x1118] = [false; true; true; true; false] /\
  getVirtualAddress (snd (seekVirtual two_m 0x1112)) = ROk (Some 0x1112).
Proof. split; [exact two_rep |]. vm_compute. split; reflexivity. Qed.
(** Writing moves the position behind what was written. *)
Theorem C88_written d h ss gs m a y m' : rep d h gs ss (pf_elf m) -> (forall k g x, nth_error gs k = Some (g, x) -> fine_phdr g) -> 0 <= a -> a + size y < 4294967296 ->
  fst (seekVirtual m a) = true -> write (snd (seekVirtual m a)) y = ROk (true, m') -> getVirtualAddress m' = ROk (Some (a + size y)).
Proof. exact (written_spec d h ss gs m a y m'). Qed.
Print Assumptions C88_written.
Example C88_written_case : exists m', fst (seekVirtual two_m 0x1104) = true /\ write (snd (seekVirtual two_m 0x1104)) [1; 2; 3] = ROk (true, m') /\ getVirtualAddress m' = ROk (Some 0x1107).
Proof. eexists. split; [vm_compute; reflexivity |]. split; [vm_compute; reflexivity | vm_compute; reflexivity]. Qed.
(** The physical address is the start of the section: what was asked for without the place in the section. *)
Theorem C88_physical_partial big d h gs ss m a m' : program big d h gs ss -> (exists gs0, rep d h gs0 ss (pf_elf m) /\ map fst gs0 = map fst gs) -> seekPhysical m a = (true, m') ->
  getPhysicalAddress m' = ROk (Some (a - pf_offset m')) /\ 0 <= pf_offset m'.
Proof. exact (physical_spec big d h gs ss m a m'). Qed.
Print Assumptions C88_physical_partial.
Example C88_physical_case : exists m', seekPhysical two_m 0x112 = (true, m') /\ getPhysicalAddress m' = ROk (Some 0x110) /\ getVirtualAddress m' = ROk (Some 0x1112).
Proof. eexists. split; [vm_compute; reflexivity |]. split; vm_compute; reflexivity. Qed.
Theorem C88_physical_refuted : exists big d h gs ss f m a m', program big d h gs ss /\ load_elf d = ROk f /\ load_program f = Some m /\ seekPhysical m a = (true, m') /\ getPhysicalAddress m' <> ROk (Some a).
Proof.
  exists false, two_d, two_h, two_gs, two_ss, two_f, two_m, 0x104, (mkProgram two_f (Some 0%nat) (Some 0%nat) 4). split; [exact two_program |]. split; [exact two_loads |]. split; [exact two_opens |]. split; [vm_compute; reflexivity |].
  vm_compute. discriminate.
Qed.
Print Assumptions C88_physical_refuted.
(** Refuted: opening the file again, for the next pass, does not put the position back to where it was at first. *)
Theorem C88_open_refuted : exists big d h gs ss f m n m', program big d h gs ss /\ load_elf d = ROk f /\ load_program f = Some m /\
  advanceMemory (open_program m) n = ROk (true, m') /\ getVirtualAddress (open_program m') <> getVirtualAddress (open_program m).
Proof.
  exists false, two_d, two_h, two_gs, two_ss, two_f, two_m, 4, (mkProgram two_f (Some 0%nat) (Some 0%nat) 4). split; [exact two_program |]. split; [exact two_loads |]. split; [exact two_opens |]. split; [vm_compute; reflexivity |].
  vm_compute. discriminate.
Qed.
Print Assumptions C88_open_refuted.

(** ** C19 for .loadelf: refuted.  Data directly after it is not written at the address that the last pass has for it: the
    program ends with the output position at [b], but [a] and the size of the data is another address. *)
Theorem C19_loadelf_refuted : exists big d h gs ss f m x a b m', program big d h gs ss /\ load_elf d = ROk f /\ load_program f = Some m /\
  load_data m x = ROk (Some a, true, m') /\ getVirtualAddress m' = ROk (Some b) /\ b <> a + size x.
Proof.
  eexists false, two_d, two_h, two_gs, two_ss, two_f, two_m, [1; 2], _, _, _. split; [exact two_program |]. split; [exact two_loads |]. split; [exact two_opens |].
  split; [vm_compute; reflexivity |]. split; [vm_compute; reflexivity |]. vm_compute. discriminate.
Qed.
Print Assumptions C19_loadelf_refuted.
