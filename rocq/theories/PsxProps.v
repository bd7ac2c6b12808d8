(** Importing PlayStation objects: C77-C82. *)

Require Import ZArith List Bool Lia.
From Verif Require Import Ints Res ElfSpec PsxModel PsxSpec PsxLinkSpec PsxReadProofs PsxImportProofs PsxAcceptProofs PsxCases.
Import ListNotations.
Local Open Scope Z_scope.

(** ** C77: a complete object is read as what its records say; a library as its members. *)
Theorem C77_objects : forall rs, Forall fine rs -> ordered [] None false rs -> parseObject (write_object rs) = ROk (Some (contents rs)).
Proof. exact object_read. Qed.
Print Assumptions C77_objects.
Theorem C77_libraries : forall name ms, Forall fine_member ms -> loadPsxLibrary name (write_library ms) = ROk (map (fun m => (mb_name m, mb_data m)) ms).
Proof. exact library_read. Qed.
Print Assumptions C77_libraries.
Theorem C77_alone : forall name rs, loadPsxLibrary name (write_object rs) = ROk [(name, write_object rs)].
Proof. exact object_alone. Qed.
Print Assumptions C77_alone.

Example C77_case : parseObject (write_object sample) = ROk (Some (contents sample)).
Proof. exact (C77_objects sample (proj1 sample_fine) (proj2 sample_fine)). Qed.
Definition members_case : list member := [mkMember [65] [main; room] (write_object sample); mkMember [66; 67] [[103]] (write_object other)].
Example C77_members : Forall fine_member members_case /\
  loadPsxLibrary [120] (write_library members_case) = ROk [([65], write_object sample); ([66; 67], write_object other)].
Proof.
  split; [| vm_compute; reflexivity]. unfold members_case, fine_member.
  apply Forall_cons; [| apply Forall_cons; [| apply Forall_nil]]; cbn [mb_name mb_symbols mb_data].
  all: split; [cbn; lia |]; split; [intros H; cbn in H; lia |]; split; [repeat (apply Forall_cons; [cbn; lia |]); apply Forall_nil | vm_compute; reflexivity].
Qed.

(** ** C78: whatever is in a file, reading it ends, with its contents or with a refusal.

    Refuted.  Data without a segment, or a record that is cut off, is undefined behaviour, and a library can be read for
    ever. *)
Theorem C78_refuted : (exists d, Forall is_byte d /\ parseObject d = RUb) /\
  (exists rs d, Forall fine rs /\ ordered [] None false rs /\ (exists n, d = firstn n (write_object rs)) /\ parseObject d = RUb) /\
  (exists d, Forall is_byte d /\ starts_with d library_magic = ROk true /\ forall fuel, members fuel d 4 = RErr).
Proof.
  split; [exists (object_magic ++ [2; 0; 0]); split; [repeat constructor; discriminate | reflexivity] |].
  split.
  - exists [Extern 7 print], (firstn 11 (write_object [Extern 7 print])).
    split; [repeat constructor; cbn; unfold is_u16, fine_text; cbn; lia |]. split; [exact Logic.I |]. split; [exists 11%nat; reflexivity | reflexivity].
  - set (d := library_magic ++ repeat 32 16 ++ [0; 0; 0; 0; 0]). exists d.
    split; [unfold d; repeat constructor; discriminate |]. split; [reflexivity |].
    induction fuel as [| fuel IH]; [reflexivity |]. cbn [members]. change (4 >=? size d) with false. cbv iota.
    change (entry_name 16 d 4) with (ROk (A := list Z) []). cbn [rbind]. change (get32 d (4 + 16)) with 0. cbv zeta.
    change (skip_names (S (length d)) d 4 20) with (ROk 21). cbn [rbind]. destruct (mid d (4 + 21) (0 - 21)) as [x | |] eqn:M; vm_compute in M; try discriminate M.
    cbn [rbind]. change (4 + 0) with 4. rewrite IH. reflexivity.
Qed.
Print Assumptions C78_refuted.
(** Reading an object always ends. *)
Theorem C78_ends_partial : forall d, Forall is_byte d -> parseObject d <> RErr.
Proof. exact parse_ends. Qed.
Print Assumptions C78_ends_partial.
(** A record of an unknown kind is refused. *)
Theorem C78_unknown_partial : forall rs t rest, Forall fine rs -> ordered [] None false rs -> ~ In t known_tags -> parseObject (write_object rs ++ t :: rest) = ROk None.
Proof. exact unknown_record. Qed.
Print Assumptions C78_unknown_partial.
Example C78_case : parseObject (write_object sample ++ [0x99; 1; 2]) = ROk None.
Proof. apply C78_unknown_partial; [apply sample_fine | apply sample_fine |]. cbn. lia. Qed.

(** ** C79: the segments and areas stand one behind the other at multiples of 4, with the bytes of the object where nothing is
    relocated; each symbol's label is the address of what it names.

    Refuted: the first segment is not aligned; from 0x80000000 on, where the memory of a PlayStation is, the labels are
    negative. *)
Theorem C79_refuted : (exists labels address fs r, Forall fine_file fs /\ psx_import labels address fs = ROk r /\ pt_ok r = true /\
    exists n x, In (n, x) (all_blocks (s32 address) fs) /\ x mod 4 <> 0) /\
  (exists labels address fs r f a y v, Forall fine_file fs /\ psx_import labels address fs = ROk r /\ pt_ok r = true /\ address = 0x80010000 /\
    In (f, a) (files_at address fs) /\ In y (pf_symbols f) /\ symbol_at f a y v /\ v = 0x80010000 /\ pt_labels r (lower (ps_name y)) = Some (-0x7FFF0000)).
Proof.
  split.
  - exists labels_at_10000, 0x10002, ready, (result_of labels_at_10000 0x10002 ready). split; [exact ready_fine |].
    destruct (works_result labels_at_10000 0x10002 ready) as (E & O); [vm_compute; reflexivity |]. split; [exact E |]. split; [exact O |].
    exists 24, 0x10002. split; [vm_compute; auto | discriminate].
  - exists labels_at_10000, 0x80010000, ready, (result_of labels_at_10000 0x80010000 ready).
    destruct (works_result labels_at_10000 0x80010000 ready) as (E & O); [vm_compute; reflexivity |].
    exists (sorted_file (contents sample)), 0x80010000, (mkPsym (Function_ 1 0) [102]), 0x80010000. split; [exact ready_fine |]. split; [exact E |]. split; [exact O |]. split; [reflexivity |].
    split; [left; reflexivity |]. split; [right; right; right; right; left; reflexivity |]. split; [| split; [reflexivity | vm_compute; reflexivity]].
    change 0x80010000 with (0x80010000 + 0). eapply at_function; [reflexivity | left; reflexivity | reflexivity].
Qed.
Print Assumptions C79_refuted.

Theorem C79_placement_partial : forall labels address fs r, Forall fine_file fs -> psx_import labels address fs = ROk r -> pt_ok r = true ->
  (* as many bytes as were reserved *)
  size (pt_out r) = pt_address r /\ pt_address r = files_end (s32 address) fs - s32 address /\
  (* no two blocks overlap, and they are aligned if the import is *)
  ForallOrdPairs (fun b b' : Z * Z => snd b + fst b <= snd b') (all_blocks (s32 address) fs) /\
  (address mod 4 = 0 -> forall n x, In (n, x) (all_blocks (s32 address) fs) -> x mod 4 = 0) /\
  (* among them are the segments and the areas *)
  (forall f a s x, In (f, a) (files_at (s32 address) fs) -> segment_at f a s x -> In (size (sg_data s), x) (all_blocks (s32 address) fs)) /\
  (forall f a y x, In (f, a) (files_at (s32 address) fs) -> area_at f a y x -> exists n, In (n, x) (all_blocks (s32 address) fs) /\ area_size y = [n]).
Proof.
  intros labels address fs r F H O. destruct (import_labels _ _ _ _ F H O) as (A & B & _). split; [congruence |]. split; [exact A |].
  split; [apply blocks_apart, F |]. split; [| split; [apply segment_block | apply area_block]].
  intros M n x. apply blocks_aligned. unfold s32. destruct (address mod 4294967296 <? 2147483648); lia.
Qed.
Print Assumptions C79_placement_partial.
(** The labels; those that the objects do not define stay. *)
Theorem C79_labels_partial : forall labels address fs r, Forall fine_file fs -> psx_import labels address fs = ROk r -> pt_ok r = true ->
  (forall n, ~ In n (defined_names fs) -> pt_labels r n = labels n) /\
  (NoDup (defined_names fs) -> forall f a y v, In (f, a) (files_at (s32 address) fs) -> In y (pf_symbols f) -> symbol_at f a y v ->
   pt_labels r (lower (ps_name y)) = Some v).
Proof. intros labels address fs r F H O. destruct (import_labels _ _ _ _ F H O) as (_ & _ & C & D). split; assumption. Qed.
Print Assumptions C79_labels_partial.
Theorem C79_bytes_partial : forall labels address fs out f a s x, settled labels address fs out -> In (f, a) (files_at (s32 address) fs) -> segment_at f a s x ->
  forall k, 0 <= k < size (sg_data s) -> (forall r, In r (sg_rels s) -> k < pr_offset r \/ pr_offset r + 4 <= k) ->
  byte_at out (x - s32 address + k) = byte_at (sg_data s) k.
Proof. exact settled_bytes. Qed.
Print Assumptions C79_bytes_partial.

(** Two objects at 0x10000: the data of the first at 0x10018 (with a byte 9 behind a relocated word), its area at 0x10024, the
    second object at 0x10030. *)
Example C79_case : files_at 0x10000 ready = [(sorted_file (contents sample), 0x10000); (sorted_file (contents other), 0x10030)] /\
  all_blocks 0x10000 ready = [(24, 0x10000); (9, 0x10018); (10, 0x10024); (4, 0x10030)] /\
  Forall fine_file ready /\ psx_import labels_at_10000 0x10000 ready = ROk (result_of labels_at_10000 0x10000 ready) /\
  pt_ok (result_of labels_at_10000 0x10000 ready) = true /\ byte_at image (0x10018 - 0x10000 + 8) = 9.
Proof.
  split; [reflexivity |]. split; [vm_compute; reflexivity |]. split; [exact ready_fine |].
  destruct (works_result labels_at_10000 0x10000 ready) as (E & O); [vm_compute; reflexivity |]. split; [exact E |]. split; [exact O |].
  assert (X : segment_at (sorted_file (contents sample)) 0x10000 (sort_segment (segment_of sample 2)) 0x10018) by (right; left; reflexivity).
  change (0x10018 - 0x10000 + 8) with (0x10018 - s32 0x10000 + 8). rewrite (C79_bytes_partial _ _ _ _ _ _ _ _ ready_settled (or_introl eq_refl) X 8); [reflexivity | vm_compute; split; congruence |].
  intros r [<- | []]. right. vm_compute. discriminate.
Qed.

(** ** C80: in a finished import each relocated word is for the final address of what it refers to.

    Words: the address is added.  Calls: it is added to the field of the jump.  Halves: the lower halves get the lower half of the
    address; the upper halves fit the lower halves, which are sign extended when the processor adds them. *)
Theorem C80_words : forall labels address fs out f a s x r t, settled labels address fs out -> In (f, a) (files_at (s32 address) fs) -> segment_at f a s x ->
  In r (sg_rels s) -> refers_to f a labels r t -> (pr_type r = UpperImmediate -> empty_halves s) ->
  patched (word_before s r) (word_after out address x r) t (pr_type r).
Proof. exact settled_word. Qed.
Print Assumptions C80_words.
(** A pair of halves gives the address, plus what was there before. *)
Theorem C80_pairs : forall labels address fs out f a s x pre hi mid lo post t, settled labels address fs out -> In (f, a) (files_at (s32 address) fs) -> segment_at f a s x ->
  sg_rels s = pre ++ hi :: mid ++ lo :: post -> pr_type hi = UpperImmediate -> pr_type lo = LowerImmediate -> Forall (fun r => pr_type r <> LowerImmediate) mid ->
  refers_to f a labels hi t ->
  pair_value (word_after out address x hi) (word_after out address x lo) = u32 (pair_value (word_before s hi) (word_before s lo) + t).
Proof. exact settled_pair. Qed.
Print Assumptions C80_pairs.

(** lui a0,0x8005 and addiu a0,a0,0 for [print] at 0x80050000; lui a1,0x0001 and addiu a1,a1,0x001C for [table]; jal to [print];
    the word is the address of [room] minus 8; the second object's jal to [main]. *)
Example C80_case : settled labels_at_10000 0x10000 ready image /\
  map (fun k => word_at false image k) [4; 8; 12; 16; 20; 28; 48] = [0x3C048005; 0x24840000; 0x3C050001; 0x24A5001C; 0x0C014000; 0x1001C; 0x0C004001] /\
  refers_to (sorted_file (contents sample)) 0x10000 labels_at_10000 (mkPrel FunctionCall SymblId 20 7 0 0) 0x80050000.
Proof.
  split; [exact ready_settled |]. split; [vm_compute; reflexivity |]. change 0x80050000 with (0x80050000 + 0) at 1.
  eapply to_external; [reflexivity | right; right; left; reflexivity | reflexivity | vm_compute; reflexivity].
Qed.

(** ** C81: an object whose symbols are known and whose halves come in pairs is imported.

    Refuted: the halves are sorted by what they refer to, but not by what is added to it, so two pairs of one symbol with
    different displacements get mixed up and are reported as an error. *)
Definition mixed : list record :=
  [Segment 1 [46; 116]; Select 1; Data (repeat 0 16);
   Reloc UpperImmediate 0 (Plus 4) (AtSymbol 1); Reloc LowerImmediate 4 (Plus 4) (AtSymbol 1);
   Reloc UpperImmediate 8 (Plus 8) (AtSymbol 1); Reloc LowerImmediate 12 (Plus 8) (AtSymbol 1); Extern 1 print].
Lemma mixed_sound : sound start_labels (contents mixed) 0x10000.
Proof.
  constructor.
  - constructor; [no_dup | | fine_list | no_dup]. apply Forall_cons; [fine_seg | apply Forall_nil].
  - intros y [<- | []]. discriminate.
  - intros y v [<- | []] S. inversion S; try discriminate. exfalso. match goal with H : area_at _ _ _ _ |- _ => destruct H end.
  - intros y [<- | []] _. exists 0x80050000. vm_compute. reflexivity.
  - intros s r [<- | []] I. vm_compute in I. eapply (range_external _ _ _ _ (mkPsym (External 1) print) 0x80050000); repeat (destruct I as [<- | I]; [try reflexivity; try (left; reflexivity); vm_compute; intuition discriminate |]); destruct I.
  - intros s [<- | []]. split; [intros r I _; vm_compute in I; repeat (destruct I as [<- | I]; [reflexivity |]); destruct I |].
    intros r I K. vm_compute in I. destruct I as [<- | [<- | [<- | [<- | []]]]]; try discriminate K.
    + exists (mkPrel LowerImmediate SymblId 4 1 0 4). split; [vm_compute; auto |]. split; [reflexivity |]. split; [split; [| split] |]; reflexivity.
    + exists (mkPrel LowerImmediate SymblId 12 1 0 8). split; [vm_compute; auto |]. split; [reflexivity |]. split; [split; [| split] |]; reflexivity.
Qed.
Theorem C81_refuted : exists labels address fs, (forall f a, In (f, a) (files_at (s32 address) fs) -> sound labels f a) /\ NoDup (defined_names fs) /\
  files_end (s32 address) fs < 2147483648 /\ forall out, ~ settled labels address (map sorted_file fs) out.
Proof.
  exists start_labels, 0x10000, [contents mixed]. split; [intros f a [E | []]; inversion E; subst; exact mixed_sound |]. split; [apply NoDup_nil |].
  split; [vm_compute; reflexivity |]. intros out [(r & H & O & _) _ _].
  assert (W : works start_labels 0x10000 (map sorted_file [contents mixed]) = false) by (vm_compute; reflexivity). unfold works in W. rewrite H in W. congruence.
Qed.
Print Assumptions C81_refuted.
(** With one displacement for each thing it works. *)
Theorem C81_accepted_partial : forall labels address fs, (forall f a, In (f, a) (files_at (s32 address) fs) -> sound labels f a) ->
  (forall f s, In f fs -> In s (pf_segments f) -> one_address (sg_rels s)) -> NoDup (defined_names fs) -> files_end (s32 address) fs < 2147483648 ->
  exists out, settled labels address (map sorted_file fs) out.
Proof. exact sound_settled. Qed.
Print Assumptions C81_accepted_partial.

(** Four halves in the wrong order, for one address. *)
Definition twice : list record :=
  [Segment 1 [46; 116]; Select 1; Data (repeat 0 16);
   Reloc LowerImmediate 4 (Plus 4) (AtSymbol 1); Reloc UpperImmediate 0 (Plus 4) (AtSymbol 1);
   Reloc LowerImmediate 12 (Plus 4) (AtSymbol 1); Reloc UpperImmediate 8 (Plus 4) (AtSymbol 1); Extern 1 print].
Example C81_case : exists out, settled start_labels 0x10000 (map sorted_file [contents twice]) out.
Proof.
  apply C81_accepted_partial; [| | apply NoDup_nil | vm_compute; reflexivity].
  - intros f a [E | []]. inversion E; subst. constructor.
    + constructor; [no_dup | | fine_list | no_dup]. apply Forall_cons; [fine_seg | apply Forall_nil].
    + intros y [<- | []]. discriminate.
    + intros y v [<- | []] S. inversion S; try discriminate. exfalso. match goal with H : area_at _ _ _ _ |- _ => destruct H end.
    + intros y [<- | []] _. exists 0x80050000. vm_compute. reflexivity.
    + intros s r [<- | []] I. vm_compute in I. eapply (range_external _ _ _ _ (mkPsym (External 1) print) 0x80050000); repeat (destruct I as [<- | I]; [try reflexivity; try (left; reflexivity); vm_compute; intuition discriminate |]); destruct I.
    + intros s [<- | []]. split; [intros r I _; vm_compute in I; repeat (destruct I as [<- | I]; [reflexivity |]); destruct I |].
      intros r I K. exists (mkPrel LowerImmediate SymblId 4 1 0 4). split; [vm_compute; auto |]. split; [reflexivity |].
      vm_compute in I. destruct I as [<- | [<- | [<- | [<- | []]]]]; try discriminate K; (split; [split; [| split] |]; reflexivity).
  - intros f s [<- | []] [<- | []] r r' I I' _ _ _. vm_compute in I, I'.
    repeat (destruct I as [<- | I]; [repeat (destruct I' as [<- | I']; [reflexivity |]); destruct I' |]). destruct I.
Qed.

(** ** C82: a name that is defined twice is reported.

    Refuted: two members of a library may define the same name; the last one wins. *)
Definition twin (word : Z) : list record := [Segment 1 [46; 116]; Select 1; Data [word; 0; 0; 0]; Defined 1 0 main].
Theorem C82_refuted : exists name d fs r v1 v2, init (fun _ => true) no_label name d = ROk (Some (fs, true)) /\ ~ NoDup (defined_names fs) /\
  psx_import no_label 0x10000 fs = ROk r /\ pt_ok r = true /\ pt_labels r main = Some v2 /\
  (exists f a y, In (f, a) (files_at 0x10000 fs) /\ In y (pf_symbols f) /\ lower (ps_name y) = main /\ symbol_at f a y v1) /\ v1 <> v2.
Proof.
  set (ms := [mkMember [65] [main] (write_object (twin 1)); mkMember [66] [main] (write_object (twin 2))]).
  set (fs := map sorted_file [contents (twin 1); contents (twin 2)]).
  exists [120], (write_library ms), fs, (result_of no_label 0x10000 fs), 0x10000, 0x10004.
  destruct (works_result no_label 0x10000 fs) as (E & O); [vm_compute; reflexivity |].
  split; [vm_compute; reflexivity |]. split; [intros N; vm_compute in N; inversion N as [| ? ? Q _]; apply Q; left; reflexivity |].
  split; [exact E |]. split; [exact O |]. split; [vm_compute; reflexivity |]. split; [| discriminate].
  exists (sorted_file (contents (twin 1))), 0x10000, (mkPsym (Internal 1 0) main). split; [left; reflexivity |]. split; [left; reflexivity |]. split; [reflexivity |].
  change 0x10000 with (0x10000 + 0) at 2. eapply at_internal; [reflexivity | left; reflexivity | reflexivity].
Qed.
Print Assumptions C82_refuted.
(** A name that the program has defined before is reported. *)
Theorem C82_reported_partial : forall valid labels name d fs ok f y, init valid labels name d = ROk (Some (fs, ok)) -> In f fs -> In y (pf_symbols f) ->
  is_external y = false -> labels (lower (ps_name y)) <> None -> ok = false.
Proof. exact defined_reported. Qed.
Print Assumptions C82_reported_partial.
Example C82_case : init (fun _ => true) labels_at_10000 [120] (write_object other) = ROk (Some ([sorted_file (contents other)], false)) /\
  labels_at_10000 (lower [103]) <> None.
Proof. split; [vm_compute; reflexivity | vm_compute; discriminate]. Qed.
