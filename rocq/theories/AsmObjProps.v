(** Programs that import object files: C76. *)

Require Import ZArith List Bool String Lia.
From Verif Require Import Ints Res FileModel BytesSpec FileSpec AllocModel AsmModel AsmSpec AsmCases AsmObjModel AsmObjProofs AsmObjCases.
Require Verif.ElfModel Verif.ElfSpec Verif.ElfProofs Verif.ElfCases.
Import ListNotations.
Local Open Scope Z_scope.

(** ** C76: an import is relocated to the place where it is written, and its symbols are known by their final places.

    The object is at the address that the program has reached ([x]), relocated with the labels the program ends with;
    the labels of its symbols and of its sections with constructors have the values that come out of that.  What stands
    before and behind is laid out with the same labels. *)
Theorem C76_import : forall files writable own_big c1 c2 ctor m fs number kinds ctors w w', Forall ElfSpec.well_formed fs ->
  fresh files (CSeq c1 (CSeq (CObj ctor (elf_object m fs number kinds ctors)) c2)) w ->
  run writable own_big (CSeq c1 (CSeq (CObj ctor (elf_object m fs number kinds ctors)) c2)) w = ROk (true, w') ->
  exists P p p1 p2 p3 p4 x out size ps,
    p_pos p = None /\ p_disk p = f_disk (w_fm w) /\ place files (w_labels w') P c1 p p1 /\ place files (w_labels w') P ctor p1 p2 /\
    p_pos p2 = Some x /\ ElfModel.relocate m (external number kinds (w_labels w')) (po_addr x) fs = ROk (out, size, ps, true) /\
    emits files out p2 p3 /\ place files (w_labels w') P c2 p3 p4 /\ p_disk p4 = f_disk (w_fm w') /\
    (forall f q y v k, In (f, q) (combine fs ps) -> In (y, v) (combine (filter ElfModel.is_exported (ElfModel.ef_symtab f)) (ElfModel.p_symbols q)) ->
      number (ElfModel.sy_name y) = Some k -> l_val (w_labels w' k) = v) /\
    forall i f q s v k, nth_error fs i = Some f -> nth_error ps i = Some q -> ElfSpec.placed_at f q s v -> ctors i (ElfModel.se_index s) = Some k -> l_val (w_labels w' k) = v.
Proof. exact import_placed. Qed.
Print Assumptions C76_import.

(** The same for an import inside of other commands: the layout that C19 gives for the whole program has this layout for it,
    with the same labels [L]. *)
Theorem C76_inside : forall files L P ctor m fs number kinds ctors p1 p3, Forall ElfSpec.well_formed fs ->
  place files L P (CObj ctor (elf_object m fs number kinds ctors)) p1 p3 ->
  exists p2 x out size ps,
    place files L P ctor p1 p2 /\
    p_pos p2 = Some x /\ ElfModel.relocate m (external number kinds L) (po_addr x) fs = ROk (out, size, ps, true) /\ emits files out p2 p3 /\
    (forall f q y v k, In (f, q) (combine fs ps) -> In (y, v) (combine (filter ElfModel.is_exported (ElfModel.ef_symtab f)) (ElfModel.p_symbols q)) ->
      number (ElfModel.sy_name y) = Some k -> l_val (L k) = v) /\
    forall i f q s v k, nth_error fs i = Some f -> nth_error ps i = Some q -> ElfSpec.placed_at f q s v -> ctors i (ElfModel.se_index s) = Some k -> l_val (L k) = v.
Proof. exact object_placed. Qed.
Print Assumptions C76_inside.

(** So a label of the program is where the symbol's section is in the output: [s] was written [x0 - po_addr x] bytes behind
    the start of the import (C53), and the symbol is [entry] behind that. *)
Theorem C76_symbols : forall files writable own_big c1 c2 ctor m fs number kinds ctors w w', Forall ElfSpec.well_formed fs ->
  fresh files (CSeq c1 (CSeq (CObj ctor (elf_object m fs number kinds ctors)) c2)) w ->
  run writable own_big (CSeq c1 (CSeq (CObj ctor (elf_object m fs number kinds ctors)) c2)) w = ROk (true, w') ->
  exists x out ps, (exists size, ElfModel.relocate m (external number kinds (w_labels w')) (po_addr x) fs = ROk (out, size, ps, true)) /\
    (exists p2 p3, p_pos p2 = Some x /\ emits files out p2 p3) /\
    forall f q s x0 y k, In (f, q) (combine fs ps) -> In y (ElfModel.ef_symtab f) -> ElfModel.is_exported y = true ->
      ElfSpec.placed_at f q s x0 -> ElfModel.sy_shndx y = ElfModel.se_index s -> number (ElfModel.sy_name y) = Some k ->
      l_val (w_labels w' k) = x0 + ElfSpec.entry m y.
Proof. exact import_symbols. Qed.
Print Assumptions C76_symbols.

(** The table at the end of the function for the constructors has the start and the end of each constructor section,
    where the sections are in the output ([l'] has address and size of the sections that [l] has the labels of); the
    object follows directly. *)
Theorem C76_constructors : forall files writable own_big c1 c2 name body table l m fs number kinds ctors w w', Forall ElfSpec.well_formed fs ->
  fresh files (CSeq c1 (CSeq (CObj (ctor_stub name body table l) (elf_object m fs number kinds ctors)) c2)) w ->
  run writable own_big (CSeq c1 (CSeq (CObj (ctor_stub name body table l) (elf_object m fs number kinds ctors)) c2)) w = ROk (true, w') ->
  exists p1 p2 p3 y x out size ps,
    p_pos p1 = Some y /\ l_val (w_labels w' table) = po_addr y /\ p_pos p2 = Some x /\
    ElfModel.relocate m (external number kinds (w_labels w')) (po_addr x) fs = ROk (out, size, ps, true) /\ emits files out p2 p3 /\
    forall l', Forall2 (fun e a => snd a = snd e /\ exists i f q s, nth_error fs i = Some f /\ nth_error ps i = Some q /\
                 ElfSpec.placed_at f q s (fst a) /\ ctors i (ElfModel.se_index s) = Some (fst e)) l l' ->
      emits files (unit_bytes (p_big p1) (map (fun v => (4%nat, v)) (flat_map (fun a : Z * Z => [fst a; s64 (fst a + snd a)]) l'))) p1 p2.
Proof. exact import_table. Qed.
Print Assumptions C76_constructors.

(** The program refers to symbols of the object before and behind it; the object to a label of the program.  The function for
    the constructors is at 0x8000021, its table at 0x8000025; the import begins at 0x800002D, its first section is at
    0x8000030, the one with the constructors (5 bytes) at 0x8000048, and "table" in it at 0x800004A. *)
Example C76_case : exists w', Forall ElfSpec.well_formed [ElfCases.m_obj] /\ fresh one_file importing (exporting one_file) /\
  run everything false importing (exporting one_file) = ROk (true, w') /\ f_disk (w_fm w') 5%nat = Some import_out.
Proof.
  destruct (outcome_at_run _ _ _ _ _ importing_runs) as (w & H & D). exists w. split; [constructor; [exact ElfCases.m_well|constructor]|].
  split; [exact importing_fresh|]. split; [exact H|]. exact (f_equal (hd None) D).
Qed.
