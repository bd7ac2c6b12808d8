(** Reading archives and ELF objects: C83-C85. *)

Require Import ZArith String List Bool Lia.
From Verif Require Import Ints Res ElfModel PsxModel ElfReadModel ElfReadSpec ElfReadProofs ArchiveProofs ElfReadCases.
Import ListNotations.
Local Open Scope Z_scope.

(** ** C83: an archive is read as its ELF members, in their order, each with its name and its data.

    Refuted.  A name with 15 characters keeps the slash.  A last member with fewer than four bytes is read past the end.  Bytes
    of the next header are taken for the beginning of a short member. *)
Theorem C83_refuted :
  ~ (forall name ms, Forall any_amember ms -> loadArArchive name (write_archive ms) = ROk (map (fun m => (am_name m, am_data m)) (filter is_elf ms))) /\
  (exists name ms, Forall any_amember ms /\ Forall (fun m => 4 <= size (am_data m)) ms /\ exists r, loadArArchive name (write_archive ms) = ROk r /\ map fst r <> map am_name (filter is_elf ms)) /\
  (exists name ms, Forall any_amember ms /\ loadArArchive name (write_archive ms) = RUb) /\
  (exists name ms r, Forall any_amember ms /\ loadArArchive name (write_archive ms) = ROk r /\ In ([120], [127; 69]) r).
Proof.
  assert (A : forall n d, (List.length n <= 15)%nat -> forallb (fun c => negb (c =? 0) && negb (c =? 32)) n = true -> size d < 2147483648 -> any_amember (mkAmember n (repeat 48 32) [96; 10] d)).
  { intros n d L F S. split; [exact L |]. split; [revert F; apply all_of; intros c C; apply andb_prop in C; destruct C as (C & D); apply negb_true_iff, Z.eqb_neq in C, D; split; assumption |].
    split; [reflexivity |]. split; [reflexivity | exact S]. }
  assert (U : loadArArchive [] (write_archive [mkAmember [97] (repeat 48 32) [96; 10] []]) = RUb) by (vm_compute; reflexivity).
  split; [| split; [| split]].
  - intros H. specialize (H [] [mkAmember [97] (repeat 48 32) [96; 10] []]). rewrite U in H. discriminate H. apply Forall_cons; [| apply Forall_nil]. apply A; [cbn; lia | reflexivity | reflexivity].
  - exists [], [mkAmember (repeat 97 15) (repeat 48 32) [96; 10] (sample_object false)]. split; [apply Forall_cons; [| apply Forall_nil]; apply A; [cbn; lia | reflexivity | vm_compute; reflexivity] |].
    split; [apply Forall_cons; [vm_compute; discriminate | apply Forall_nil] |]. exists [(repeat 97 15 ++ [47], sample_object false)]. split; [vm_compute; reflexivity | vm_compute; discriminate].
  - exists [], [mkAmember [97] (repeat 48 32) [96; 10] []]. split; [apply Forall_cons; [| apply Forall_nil]; apply A; [cbn; lia | reflexivity | reflexivity] | exact U].
  - exists [], [mkAmember [120] (repeat 48 32) [96; 10] [127; 69]; mkAmember [76; 70] (repeat 48 32) [96; 10] [1; 2; 3; 4]], [([120], [127; 69])].
    split; [repeat (apply Forall_cons; [apply A; [cbn; lia | reflexivity | reflexivity] |]); apply Forall_nil |]. split; [vm_compute; reflexivity | left; reflexivity].
Qed.
Print Assumptions C83_refuted.
Theorem C83_members_partial : forall name ms, Forall fine_amember ms -> loadArArchive name (write_archive ms) = ROk (map (fun m => (am_name m, am_data m)) (filter is_elf ms)).
Proof. exact archive_read. Qed.
Print Assumptions C83_members_partial.
(** A file that is no archive but begins as an ELF file stands for itself. *)
Theorem C83_alone : forall name d, has d 0 elf_magic -> loadArArchive name d = ROk [(name, d)].
Proof. exact object_entry. Qed.
Print Assumptions C83_alone.
Example C83_case : loadArArchive [] (write_archive sample_members) =
  ROk [(chars "first.o", sample_object false); (chars "second.o", debug_object); (chars "again.o", sample_object false ++ [0])].
Proof. rewrite (C83_members_partial [] sample_members sample_members_fine). reflexivity. Qed.

(** ** C84: an object is read as what its file says: the sections with their data and relocations, the symbols, and the
    constructor sections; an archive as its objects.

    Refuted.  The names of the symbols are looked up in the last string table instead of the one that the symbol table refers to.
    Of two sections with relocations for the same section only the first is used. *)
Theorem C84_refuted :
  (exists m d h ss f, file_of false d h ss /\ one_each ss /\ e_type h = 1 /\ e_machine h = expectedMachine m /\
     init_file m false d = ROk (Some f) /\ ef_symtab (fst f) <> object_symbols ss) /\
  (exists m d h ss f, file_of false d h ss /\ one_table (e_shstrndx h) ss /\ e_type h = 1 /\ e_machine h = expectedMachine m /\
     init_file m false d = ROk (Some f) /\ ef_sections (fst f) <> object_sections false ss).
Proof.
  split.
  - assert (E : exists f, init_file Mips false debug_object = ROk (Some f) /\ map sy_name (ef_symtab (fst f)) <> map sy_name (object_symbols debug_sections)).
    { destruct (init_file Mips false debug_object) as [[f |] | |] eqn:E; vm_compute in E; try discriminate E. injection E as <-. eexists. split; [reflexivity |]. vm_compute. discriminate. }
    destruct E as (f & E & N). exists Mips, debug_object, debug_header, debug_sections, f. split; [exact debug_file |].
    split; [split; [repeat (apply Forall_cons; [vm_compute; trivial |]); apply Forall_nil | repeat (apply FOP_cons; [repeat (apply Forall_cons; [vm_compute; trivial; try discriminate |]); apply Forall_nil |]); apply FOP_nil] |].
    split; [reflexivity |]. split; [reflexivity |]. split; [exact E |]. intros C. apply N. rewrite C. reflexivity.
  - assert (E : exists f, init_file Mips false twice_object = ROk (Some f) /\ map (fun s => List.length (se_rels s)) (ef_sections (fst f)) <> map (fun s => List.length (se_rels s)) (object_sections false twice_sections)).
    { destruct (init_file Mips false twice_object) as [[f |] | |] eqn:E; vm_compute in E; try discriminate E. injection E as <-. eexists. split; [reflexivity |]. vm_compute. discriminate. }
    destruct E as (f & E & N). exists Mips, twice_object, twice_header, twice_sections, f. split; [exact twice_file |].
    split.
    { split; [repeat (apply FOP_cons; [repeat (apply Forall_cons; [vm_compute; trivial |]); apply Forall_nil |]); apply FOP_nil |].
      intros t ys i u T B I S. assert (L : sh_link (os_hdr t) = 7) by (repeat (destruct T as [<- | T]; [try discriminate B; try reflexivity |]); destruct T). rewrite L. clear T B L.
      do 10 (destruct i as [| i]; [injection I as <-; try discriminate S; (left; reflexivity) || (right; reflexivity) |]). destruct i; discriminate I. }
    split; [reflexivity |]. split; [reflexivity |]. split; [exact E |]. intros C. apply N. rewrite C. reflexivity.
Qed.
Print Assumptions C84_refuted.
Theorem C84_object_partial : forall m big name d h ss, has d 0 elf_magic -> file_of big d h ss -> one_each ss -> one_table (e_shstrndx h) ss ->
  e_type h = 1 -> e_machine h = expectedMachine m ->
  init_elf m big name d = ROk (Some [(mkFile big (object_sections big ss) (object_symbols ss), object_ctors ss)]).
Proof. exact alone_read. Qed.
Print Assumptions C84_object_partial.
Theorem C84_archive_partial : forall m big name ms xs, Forall fine_amember ms ->
  Forall2 (fun (a : amember) (x : ehdr * list osec) => file_of big (am_data a) (fst x) (snd x) /\ one_each (snd x) /\ one_table (e_shstrndx (fst x)) (snd x) /\
             e_type (fst x) = 1 /\ e_machine (fst x) = expectedMachine m) (filter is_elf ms) xs -> xs <> [] ->
  init_elf m big name (write_archive ms) = ROk (Some (map (fun x => (mkFile big (object_sections big (snd x)) (object_symbols (snd x)), object_ctors (snd x))) xs)).
Proof. exact library_read. Qed.
Print Assumptions C84_archive_partial.
Example C84_case : init_elf Mips true [] (sample_object true) =
  ROk (Some [(mkFile true
    [mkSec 1 false 8 4 [0; 0; 0; 12; 4; 0; 130; 140] [mkRel 0 4 2 0; mkRel 4 6 3 0]; mkSec 3 false 4 4 [0; 0; 0; 0] [mkRel 0 2 1 (-4)]; mkSec 5 true 32 8 [] []]
    [mkSym "" 0 0 0 0 0; mkSym "main" 0 8 1 2 1; mkSym "printf" 0 0 1 0 0; mkSym "" 0 32 0 1 5], [(3, 4)])]).
Proof. rewrite (C84_object_partial Mips true [] _ _ _ (hasb_has (sample_object true) 0 elf_magic eq_refl) (sample_file true) (sample_each true) (sample_table true) eq_refl eq_refl). reflexivity. Qed.
Example C84_archive_case : exists r, init_elf Mips true [] (write_archive [member_of "a.o" (sample_object true); member_of "notes" (chars "none"); member_of "b.o" (sample_object true)]) = ROk (Some r) /\ List.length r = 2%nat.
Proof.
  eexists. split.
  - apply (C84_archive_partial Mips true [] [member_of "a.o" (sample_object true); member_of "notes" (chars "none"); member_of "b.o" (sample_object true)]
             [(sample_header true, sample_sections true); (sample_header true, sample_sections true)]).
    + repeat (apply Forall_cons; [apply member_fine; [vm_compute; lia | reflexivity | vm_compute; split; [discriminate | reflexivity]] |]). apply Forall_nil.
    + change (filter is_elf [member_of "a.o" (sample_object true); member_of "notes" (chars "none"); member_of "b.o" (sample_object true)]) with [member_of "a.o" (sample_object true); member_of "b.o" (sample_object true)].
      repeat (apply Forall2_cons; [split; [exact (sample_file true) |]; split; [exact (sample_each true) |]; split; [exact (sample_table true) | split; reflexivity] |]). apply Forall2_nil.
    + discriminate.
  - reflexivity.
Qed.

(** ** C85: a file that cannot be imported is refused.

    Refuted.  A file that is cut off is undefined behaviour, and the members of an archive can be read for ever. *)
Theorem C85_refuted :
  (exists n, init_elf Mips false [] (firstn n (sample_object false)) = RUb) /\
  (exists d, Forall is_byte d /\ has d 0 archive_magic /\ forall fuel, ar_loop fuel d 8 = RErr).
Proof.
  split; [exists (List.length (sample_object false) - 20)%nat; vm_compute; reflexivity |].
  set (d := archive_magic ++ repeat 32 48 ++ [42; 48] ++ repeat 32 20). exists d.
  split; [repeat constructor; discriminate |]. split; [split; [lia | reflexivity] |].
  induction fuel as [| fuel IH]; [reflexivity |]. cbn [ar_loop]. change ((8 <? 0) || (8 >=? size d)) with false. cbv iota.
  change (member_size 10 d (8 + 48) 0) with (ROk (-60)). cbn [rbind]. cbv zeta. change (starts_with (skipn (Z.to_nat (8 + 60)) d) elf_magic) with (ROk (A := bool) false). cbn [rbind].
  change (if Z.odd (8 + 60 + -60) then 8 + 60 + -60 + 1 else 8 + 60 + -60) with 8. rewrite IH. reflexivity.
Qed.
Print Assumptions C85_refuted.
(** No archive and no ELF file. *)
Theorem C85_foreign_partial : forall m big name d, ~ has d 0 elf_magic -> ~ has d 0 archive_magic -> init_elf m big name d = ROk None.
Proof. exact foreign_refused. Qed.
Print Assumptions C85_foreign_partial.
(** An object of another type, for another machine, or with the other byte order. *)
Theorem C85_unfit_partial : forall m big d big' h ss, file_of big' d h ss -> (e_type h <> 1 \/ e_machine h <> expectedMachine m \/ big' <> big) -> init_file m big d = ROk None.
Proof. exact object_refused. Qed.
Print Assumptions C85_unfit_partial.
(** An archive with such an object, after those that can be read. *)
Theorem C85_archive_partial : forall m big name ms before xs a rest big' h ss, Forall fine_amember ms -> filter is_elf ms = before ++ a :: rest ->
  Forall2 (fun (a : amember) (x : ehdr * list osec) => file_of big (am_data a) (fst x) (snd x) /\ one_each (snd x) /\ one_table (e_shstrndx (fst x)) (snd x) /\
             e_type (fst x) = 1 /\ e_machine (fst x) = expectedMachine m) before xs ->
  file_of big' (am_data a) h ss -> (e_type h <> 1 \/ e_machine h <> expectedMachine m \/ big' <> big) -> init_elf m big name (write_archive ms) = ROk None.
Proof. exact library_refused. Qed.
Print Assumptions C85_archive_partial.
Example C85_case : init_file Sh true (sample_object true) = ROk None /\ init_file Mips false (sample_object true) = ROk None /\ init_elf Mips false [] (chars "text") = ROk None.
Proof.
  split; [apply (C85_unfit_partial _ _ _ true (sample_header true) (sample_sections true) (sample_file true)); right; left; discriminate |].
  split; [apply (C85_unfit_partial _ _ _ true (sample_header true) (sample_sections true) (sample_file true)); right; right; discriminate |].
  apply C85_foreign_partial; intros (_ & H); discriminate H.
Qed.
Example C85_archive_case : init_elf Mips true [] (write_archive [member_of "a.o" (sample_object true); member_of "b.o" (sample_object false)]) = ROk None.
Proof.
  apply (C85_archive_partial Mips true [] [member_of "a.o" (sample_object true); member_of "b.o" (sample_object false)] [member_of "a.o" (sample_object true)] [(sample_header true, sample_sections true)]
           (member_of "b.o" (sample_object false)) [] false (sample_header false) (sample_sections false)).
  - repeat (apply Forall_cons; [apply member_fine; [vm_compute; lia | reflexivity | vm_compute; split; [discriminate | reflexivity]] |]). apply Forall_nil.
  - reflexivity.
  - apply Forall2_cons; [| apply Forall2_nil]. split; [exact (sample_file true) |]. split; [exact (sample_each true) |]. split; [exact (sample_table true) | split; reflexivity].
  - exact (sample_file false).
  - right; right; discriminate.
Qed.
