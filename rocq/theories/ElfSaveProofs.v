(** Proofs for saving ELF programs. *)

Require Import ZArith Lia Bool List Permutation.
Require Import ZifyBool.
Require Import Verif.Ints Verif.IntsLemmas Verif.Res Verif.BytesSpec Verif.ElfModel Verif.PsxModel Verif.ElfReadModel Verif.ElfReadSpec Verif.ElfReadProofs.
Require Import Verif.ElfSaveModel Verif.ElfSaveSpec.
Import ListNotations.
Local Open Scope Z_scope.

(** ** Replacing bytes *)

Definition frame (d d' : list Z) (lo hi : Z) : Prop := size d' = size d /\ forall p y, has d p y -> p + size y <= lo \/ hi <= p -> has d' p y.
Lemma frame_refl d lo hi : frame d d lo hi.
Proof. split; [reflexivity | intros p y H _; exact H]. Qed.
Lemma frame_trans d1 d2 d3 lo hi : frame d1 d2 lo hi -> frame d2 d3 lo hi -> frame d1 d3 lo hi.
Proof. intros (S1 & F1) (S2 & F2). split; [congruence |]. intros p y H C. apply F2; [apply F1 |]; assumption. Qed.
Lemma frame_wide d d' lo hi lo' hi' : frame d d' lo hi -> lo' <= lo -> hi <= hi' -> frame d d' lo' hi'.
Proof. intros (S & F) L H. split; [exact S |]. intros p y P C. apply F; [exact P | lia]. Qed.

Lemma nth_firstn {A} (l : list A) : forall n j, nth_error (firstn n l) j = if Nat.ltb j n then nth_error l j else None.
Proof.
  induction l as [| x l IH]; intros [| n] [| j]; try reflexivity.
  - cbn [firstn nth_error]. destruct (Nat.ltb (S j) (S n)); reflexivity.
  - cbn [firstn nth_error]. rewrite IH. reflexivity.
Qed.
Lemma nth_skipn {A} (l : list A) : forall n j, nth_error (skipn n l) j = nth_error l (n + j).
Proof. induction l as [| x l IH]; intros [| n] j; try reflexivity; [destruct j; reflexivity |]. cbn [skipn Nat.add nth_error]. apply IH. Qed.
Lemma nth_same {A} (l : list A) : forall l', (forall j, nth_error l j = nth_error l' j) -> l = l'.
Proof.
  induction l as [| x l IH]; intros [| y l'] H; [reflexivity | discriminate (H O) | discriminate (H O) |]. f_equal; [specialize (H O); cbn in H; congruence |].
  apply IH. intros j. apply (H (S j)).
Qed.
Lemma has_nth d p y : has d p y <-> 0 <= p /\ forall j, (j < List.length y)%nat -> nth_error d (Z.to_nat p + j) = nth_error y j.
Proof.
  unfold has. split; intros (P & H); split; try exact P.
  - intros j J. transitivity (nth_error (firstn (List.length y) (skipn (Z.to_nat p) d)) j); [| rewrite H; reflexivity]. rewrite nth_firstn, nth_skipn.
    destruct (Nat.ltb_spec j (List.length y)); [reflexivity | lia].
  - apply nth_same. intros j. rewrite nth_firstn, nth_skipn. destruct (Nat.ltb_spec j (List.length y)) as [J | J]; [apply H; exact J |].
    symmetry. apply nth_error_None. exact J.
Qed.
Lemma put_nth d pos x j : 0 <= pos -> pos + size x <= size d ->
  nth_error (put d pos x) j = if Nat.ltb j (Z.to_nat pos) then nth_error d j else if Nat.ltb j (Z.to_nat pos + List.length x) then nth_error x (j - Z.to_nat pos) else nth_error d j.
Proof.
  intros P S. unfold put. destruct (Z.ltb_spec (size d) (pos + size x)); [lia |]. unfold size in *. assert (L : List.length (firstn (Z.to_nat pos) d) = Z.to_nat pos) by (rewrite firstn_length; lia).
  destruct (Nat.ltb_spec j (Z.to_nat pos)) as [J | J].
  - rewrite nth_error_app1 by lia. rewrite nth_firstn. destruct (Nat.ltb_spec j (Z.to_nat pos)); [reflexivity | lia].
  - rewrite nth_error_app2 by lia. rewrite L. destruct (Nat.ltb_spec j (Z.to_nat pos + List.length x)) as [K | K].
    + rewrite nth_error_app1 by lia. reflexivity.
    + rewrite nth_error_app2 by lia. rewrite nth_skipn. f_equal. lia.
Qed.
Lemma put_size d pos x : 0 <= pos -> size (put d pos x) = size d.
Proof.
  intros P. unfold put. destruct (Z.ltb_spec (size d) (pos + size x)); [reflexivity |]. unfold size in *. rewrite !app_length, firstn_length, skipn_length. lia.
Qed.
Lemma put_has d pos x : 0 <= pos -> pos + size x <= size d -> has (put d pos x) pos x.
Proof.
  intros P S. apply has_nth. split; [exact P |]. intros j J. rewrite put_nth by assumption. destruct (Nat.ltb_spec (Z.to_nat pos + j) (Z.to_nat pos)); [lia |].
  destruct (Nat.ltb_spec (Z.to_nat pos + j) (Z.to_nat pos + List.length x)); [| lia]. f_equal. lia.
Qed.
Lemma put_frame d pos x : 0 <= pos -> frame d (put d pos x) pos (pos + size x).
Proof.
  intros P. split; [apply put_size, P |]. intros p y H C. destruct (Z.ltb_spec (size d) (pos + size x)) as [L | L].
  - unfold put. destruct (Z.ltb_spec (size d) (pos + size x)); [exact H | lia].
  - apply has_nth in H. destruct H as (Q & H). apply has_nth. split; [exact Q |]. intros j J. rewrite put_nth by assumption. rewrite <- (H j J). unfold size in *.
    destruct (Nat.ltb_spec (Z.to_nat p + j) (Z.to_nat pos)); [reflexivity |]. destruct (Nat.ltb_spec (Z.to_nat p + j) (Z.to_nat pos + List.length x)); [lia | reflexivity].
Qed.

Lemma split_four big w : split_word big w = four big w.
Proof.
  unfold split_word, four, encode_bytes. assert (E : le_bytes 4 w = [w mod 256; (w / 256) mod 256; (w / 65536) mod 256; (w / 16777216) mod 256]).
  { cbn [le_bytes]. rewrite !Z.div_div by lia. reflexivity. }
  rewrite E. destruct big; reflexivity.
Qed.
Lemma bytes2_two big w : bytes2 big w = two big w.
Proof. unfold bytes2, two, encode_bytes. cbn [le_bytes]. destruct big; reflexivity. Qed.
Lemma size_four big w : size (four big w) = 4.
Proof. rewrite <- split_four. unfold split_word. destruct big; reflexivity. Qed.
Lemma size_two big w : size (two big w) = 2.
Proof. replace (two big w) with (bytes2 big w) by apply bytes2_two. unfold bytes2. destruct big; reflexivity. Qed.
Lemma size_words big ws : size (flat_map (four big) ws) = 4 * size ws.
Proof. induction ws as [| w ws IH]; [reflexivity |]. cbn [flat_map]. rewrite size_app, size_four, IH. unfold size. cbn [List.length]. lia. Qed.
Lemma size_halves big ws : size (flat_map (two big) ws) = 2 * size ws.
Proof. induction ws as [| w ws IH]; [reflexivity |]. cbn [flat_map]. rewrite size_app, size_two, IH. unfold size. cbn [List.length]. lia. Qed.

Lemma put_words_has big ws : forall d pos, 0 <= pos -> pos + 4 * size ws <= size d ->
  has (put_words big d pos ws) pos (flat_map (four big) ws) /\ frame d (put_words big d pos ws) pos (pos + 4 * size ws).
Proof.
  induction ws as [| w ws IH]; intros d pos P S; cbn [put_words flat_map]; [split; [apply has_nil, P | apply frame_refl] |].
  assert (Z4 : size (split_word big w) = 4) by (rewrite split_four; apply size_four).
  assert (L : size (w :: ws) = 1 + size ws) by (unfold size; cbn [List.length]; lia). rewrite L in *. assert (N := size_nonneg ws).
  destruct (IH (put d pos (split_word big w)) (pos + 4)) as (H & F); [lia | rewrite put_size by lia; lia |]. split.
  - apply has_app. rewrite size_four. split; [| exact H]. rewrite <- split_four. apply F; [apply put_has; lia |]. rewrite Z4. lia.
  - eapply frame_trans; [eapply frame_wide; [apply put_frame; exact P | lia | rewrite Z4; lia] | eapply frame_wide; [exact F | lia | lia]].
Qed.
Lemma put_halves_has big ws : forall d pos, 0 <= pos -> pos + 2 * size ws <= size d ->
  has (put_halves big d pos ws) pos (flat_map (two big) ws) /\ frame d (put_halves big d pos ws) pos (pos + 2 * size ws).
Proof.
  induction ws as [| w ws IH]; intros d pos P S; cbn [put_halves flat_map]; [split; [apply has_nil, P | apply frame_refl] |].
  assert (Z4 : size (bytes2 big w) = 2) by (rewrite bytes2_two; apply size_two).
  assert (L : size (w :: ws) = 1 + size ws) by (unfold size; cbn [List.length]; lia). rewrite L in *. assert (N := size_nonneg ws).
  destruct (IH (put d pos (bytes2 big w)) (pos + 2)) as (H & F); [lia | rewrite put_size by lia; lia |]. split.
  - apply has_app. rewrite size_two. split; [| exact H]. replace (two big w) with (bytes2 big w) by apply bytes2_two. apply F; [apply put_has; lia |]. rewrite Z4. lia.
  - eapply frame_trans; [eapply frame_wide; [apply put_frame; exact P | lia | rewrite Z4; lia] | eapply frame_wide; [exact F | lia | lia]].
Qed.

Lemma section_header_put big d pos h : 0 <= pos -> pos + 40 <= size d ->
  has (writeSectionHeader big d pos h) pos (shdr_bytes big h) /\ frame d (writeSectionHeader big d pos h) pos (pos + 40).
Proof. intros P S. exact (put_words_has big (shdr_fields h) d pos P S). Qed.
Lemma segment_header_put big d pos h : 0 <= pos -> pos + 32 <= size d ->
  has (writeSegmentHeader big d pos h) pos (phdr_bytes big h) /\ frame d (writeSegmentHeader big d pos h) pos (pos + 32).
Proof. intros P S. exact (put_words_has big (phdr_fields h) d pos P S). Qed.
Lemma elf_header_put big d h : List.length (e_ident h) = 16%nat -> 52 <= size d ->
  has (writeElfHeader big d h) 0 (ehdr_bytes big h) /\ frame d (writeElfHeader big d h) 0 52.
Proof.
  intros I S. unfold writeElfHeader. cbv zeta. assert (S1 : size (e_ident h) = 16) by (unfold size; rewrite I; reflexivity).
  set (d1 := put d 0 (e_ident h)). assert (F1 : frame d d1 0 16) by (eapply frame_wide; [apply put_frame; lia | lia | lia]). assert (H1 : has d1 0 (e_ident h)) by (apply put_has; lia).
  destruct (put_halves_has big [e_type h; e_machine h] d1 0x10) as (H2 & F2); [lia | rewrite (proj1 F1); change (2 * size [e_type h; e_machine h]) with 4; lia |].
  set (d2 := put_halves big d1 0x10 [e_type h; e_machine h]) in *. change (0x10 + 2 * size [e_type h; e_machine h]) with 20 in F2.
  destruct (put_words_has big [e_version h; e_entry h; e_phoff h; e_shoff h; e_flags h] d2 0x14) as (H3 & F3);
    [lia | rewrite (proj1 F2), (proj1 F1); change (4 * size [e_version h; e_entry h; e_phoff h; e_shoff h; e_flags h]) with 20; lia |].
  set (d3 := put_words big d2 0x14 [e_version h; e_entry h; e_phoff h; e_shoff h; e_flags h]) in *. change (0x14 + 4 * size [e_version h; e_entry h; e_phoff h; e_shoff h; e_flags h]) with 40 in F3.
  destruct (put_halves_has big [e_ehsize h; e_phentsize h; e_phnum h; e_shentsize h; e_shnum h; e_shstrndx h] d3 0x28) as (H4 & F4);
    [lia | rewrite (proj1 F3), (proj1 F2), (proj1 F1); change (2 * size [e_ehsize h; e_phentsize h; e_phnum h; e_shentsize h; e_shnum h; e_shstrndx h]) with 12; lia |].
  set (d4 := put_halves big d3 0x28 [e_ehsize h; e_phentsize h; e_phnum h; e_shentsize h; e_shnum h; e_shstrndx h]) in *.
  change (0x28 + 2 * size [e_ehsize h; e_phentsize h; e_phnum h; e_shentsize h; e_shnum h; e_shstrndx h]) with 52 in F4. split.
  - replace (ehdr_bytes big h) with (e_ident h ++ flat_map (two big) [e_type h; e_machine h] ++ flat_map (four big) [e_version h; e_entry h; e_phoff h; e_shoff h; e_flags h]
      ++ flat_map (two big) [e_ehsize h; e_phentsize h; e_phnum h; e_shentsize h; e_shnum h; e_shstrndx h]) by (unfold ehdr_bytes; cbn [flat_map]; rewrite !app_nil_r, <- !app_assoc; reflexivity).
    apply has_app. rewrite S1. split; [| apply has_app; rewrite size_halves; split; [| apply has_app; rewrite size_words; split]].
    + apply F4; [apply F3; [apply F2; [exact H1 |] |] |]; rewrite S1; lia.
    + apply F4; [apply F3; [exact H2 |] |]; rewrite size_halves; change (size [e_type h; e_machine h]) with 2; lia.
    + change (2 * size [e_type h; e_machine h]) with 4. apply F4; [exact H3 |]. rewrite size_words. change (size [e_version h; e_entry h; e_phoff h; e_shoff h; e_flags h]) with 5. lia.
    + exact H4.
  - eapply frame_trans; [eapply frame_wide; [exact F1 | lia | lia] |]. eapply frame_trans; [eapply frame_wide; [exact F2 | lia | lia] |].
    eapply frame_trans; [eapply frame_wide; [exact F3 | lia | lia] |]. eapply frame_wide; [exact F4 | lia | lia].
Qed.

Lemma section_table_put big step ss : forall d pos, 0 <= pos -> 40 <= step -> pos + Z.of_nat (List.length ss) * step <= size d ->
  (forall i s, nth_error ss i = Some s -> has (write_section_table big d pos step ss) (pos + Z.of_nat i * step) (shdr_bytes big (s_hdr s))) /\ frame d (write_section_table big d pos step ss) pos (pos + Z.of_nat (List.length ss) * step).
Proof.
  induction ss as [| t ss IH]; intros d pos P W R; cbn [write_section_table List.length]; [split; [intros [|] s E; discriminate E | apply frame_refl] |].
  cbn [List.length] in R. destruct (section_header_put big d pos (s_hdr t)) as (H & F); [exact P | lia |].
  destruct (IH (writeSectionHeader big d pos (s_hdr t)) (pos + step)) as (A & B); [lia | exact W | rewrite (proj1 F); lia |]. split.
  - intros [| i] s E; [injection E as <-; rewrite Z.mul_0_l, Z.add_0_r; apply B; [exact H |] | replace (pos + Z.of_nat (S i) * step) with (pos + step + Z.of_nat i * step) by lia; apply A; exact E].
    unfold shdr_bytes. rewrite size_words. change (size (shdr_fields (s_hdr t))) with 10. lia.
  - eapply frame_trans; [eapply frame_wide; [exact F | lia | lia] | eapply frame_wide; [exact B | lia | lia]].
Qed.
Lemma segment_table_put big step gs : forall d pos, 0 <= pos -> 32 <= step -> pos + Z.of_nat (List.length gs) * step <= size d ->
  (forall k g, nth_error gs k = Some g -> has (write_segment_table big d pos step gs) (pos + Z.of_nat k * step) (phdr_bytes big (g_hdr g))) /\ frame d (write_segment_table big d pos step gs) pos (pos + Z.of_nat (List.length gs) * step).
Proof.
  induction gs as [| t gs IH]; intros d pos P W R; cbn [write_segment_table List.length]; [split; [intros [|] s E; discriminate E | apply frame_refl] |].
  cbn [List.length] in R. destruct (segment_header_put big d pos (g_hdr t)) as (H & F); [exact P | lia |].
  destruct (IH (writeSegmentHeader big d pos (g_hdr t)) (pos + step)) as (A & B); [lia | exact W | rewrite (proj1 F); lia |]. split.
  - intros [| i] s E; [injection E as <-; rewrite Z.mul_0_l, Z.add_0_r; apply B; [exact H |] | replace (pos + Z.of_nat (S i) * step) with (pos + step + Z.of_nat i * step) by lia; apply A; exact E].
    unfold phdr_bytes. rewrite size_words. change (size (phdr_fields (g_hdr t))) with 8. lia.
  - eapply frame_trans; [eapply frame_wide; [exact F | lia | lia] | eapply frame_wide; [exact B | lia | lia]].
Qed.

(** ** The parts *)

Definition apart (p n q m : Z) : Prop := p + n <= q \/ q + m <= p.
(** Tables and data in the bytes so far. *)
Record parts (out : list Z) (ts : list (Z * Z)) (is : list (Z * list Z)) : Prop := mkParts {
  pt_size : 52 <= size out;
  pt_tables : forall p n, In (p, n) ts -> 52 <= p /\ 0 <= n /\ p + n <= size out;
  pt_items : forall p x, In (p, x) is -> 52 <= p /\ has out p x /\ p + size x <= size out;
  pt_apart : forall p n q x, In (p, n) ts -> In (q, x) is -> apart p n q (size x)
}.
Lemma has_more d p x more : has d p x -> p + size x <= size d -> has (d ++ more) p x.
Proof.
  intros H S. apply has_nth in H. destruct H as (P & H). apply has_nth. split; [exact P |]. intros j J. unfold size in S. rewrite nth_error_app1 by lia. apply H, J.
Qed.
Lemma has_end d x : has (d ++ x) (size d) x.
Proof. apply has_nth. split; [apply size_nonneg |]. intros j J. unfold size. rewrite Nat2Z.id, nth_error_app2 by lia. f_equal. lia. Qed.
Lemma parts_more out ts is more : parts out ts is -> parts (out ++ more) ts is.
Proof.
  intros P. assert (N := size_nonneg more). constructor; rewrite ?size_app.
  - assert (X := pt_size _ _ _ P). lia.
  - intros p n I. assert (X := pt_tables _ _ _ P p n I). lia.
  - intros p x I. destruct (pt_items _ _ _ P p x I) as (A & B & C). split; [exact A |]. split; [apply has_more; assumption | lia].
  - exact (pt_apart _ _ _ P).
Qed.
Lemma parts_table out ts is n : parts out ts is -> 0 <= n -> parts (out ++ repeat 0 (Z.to_nat n)) ((size out, n) :: ts) is.
Proof.
  intros P N. assert (S := pt_size _ _ _ P). assert (M := parts_more _ _ _ (repeat 0 (Z.to_nat n)) P). assert (R : size (repeat 0 (Z.to_nat n)) = n) by (unfold size; rewrite repeat_length; lia). constructor.
  - exact (pt_size _ _ _ M).
  - intros p m [I | I]; [injection I as <- <-; rewrite size_app, R; lia | exact (pt_tables _ _ _ M p m I)].
  - exact (pt_items _ _ _ M).
  - intros p m q x [I | I] J; [injection I as <- <-; right; exact (proj2 (proj2 (pt_items _ _ _ P q x J))) | exact (pt_apart _ _ _ P p m q x I J)].
Qed.
Lemma parts_item out ts is x : parts out ts is -> parts (out ++ x) ts ((size out, x) :: is).
Proof.
  intros P. assert (S := pt_size _ _ _ P). assert (M := parts_more _ _ _ x P). constructor.
  - exact (pt_size _ _ _ M).
  - exact (pt_tables _ _ _ M).
  - intros p y [I | I]; [injection I as <- <-; split; [exact S |]; split; [apply has_end | rewrite size_app; lia] | exact (pt_items _ _ _ M p y I)].
  - intros p m q y I [J | J]; [injection J as <- <-; left; exact (proj2 (proj2 (pt_tables _ _ _ P p m I))) | exact (pt_apart _ _ _ P p m q y I J)].
Qed.
Lemma align_more a out : exists more, alignSize a out = out ++ more.
Proof. unfold alignSize, reserve. destruct (a <=? 0); [exists []; symmetry; apply app_nil_r | eexists; reflexivity]. Qed.

Lemma change_nth_at {A} (f : A -> A) : forall l n j, nth_error (change_nth n f l) j = if Nat.eqb j n then option_map f (nth_error l j) else nth_error l j.
Proof.
  induction l as [| x l IH]; intros [| n] [| j]; try reflexivity; cbn [change_nth nth_error Nat.eqb].
  - destruct (Nat.eqb j n); reflexivity.
  - apply IH.
Qed.
Lemma change_nth_length {A} (f : A -> A) : forall l n, List.length (change_nth n f l) = List.length l.
Proof. induction l as [| x l IH]; intros [| n]; try reflexivity. cbn [change_nth List.length]. rewrite IH. reflexivity. Qed.
Lemma change_all {A} (f : A -> A) is : forall l j x, NoDup is -> nth_error l j = Some x ->
  nth_error (fold_left (fun l i => change_nth i f l) is l) j = Some (if in_dec Nat.eq_dec j is then f x else x).
Proof.
  induction is as [| i is IH]; intros l j x N E; [exact E |]. inversion N as [| ? ? N1 N2]; subst. cbn [fold_left].
  assert (C : nth_error (change_nth i f l) j = Some (if Nat.eqb j i then f x else x)) by (rewrite change_nth_at, E; destruct (Nat.eqb j i); reflexivity).
  rewrite (IH _ j _ N2 C). f_equal. destruct (Nat.eqb_spec j i) as [-> | D].
  - destruct (in_dec Nat.eq_dec i is); [contradiction |]. destruct (in_dec Nat.eq_dec i (i :: is)) as [_ | Q]; [reflexivity | elim Q; left; reflexivity].
  - destruct (in_dec Nat.eq_dec j is) as [I | I], (in_dec Nat.eq_dec j (i :: is)) as [J | J]; try reflexivity; [elim J; right; exact I | destruct J as [J | J]; [congruence | contradiction]].
Qed.
Lemma change_all_length {A} (f : A -> A) is : forall l, List.length (fold_left (fun l i => change_nth i f l) is l) = List.length l.
Proof. induction is as [| i is IH]; intros l; [reflexivity |]. cbn [fold_left]. rewrite IH, change_nth_length. reflexivity. Qed.

Definition strange (a b : segment) : Prop := forall i, In i (g_sections a) -> ~ In i (g_sections b).
Lemma write_segment_done out ss g ts is : parts out ts is -> g_sections g <> [] -> NoDup (g_sections g) ->
  exists p out' ss' paddr, write_segment out ss g = (out', ss', mkSegment (with_place (u32 p) paddr (g_hdr g)) (g_data g) (g_sections g) (g_paddr g)) /\
    parts out' ts ((p, g_data g) :: is) /\ List.length ss' = List.length ss /\
    (forall i sec, nth_error ss i = Some sec -> nth_error ss' i = Some (if in_dec Nat.eq_dec i (g_sections g) then setOffsetBase (u32 p) sec else sec)) /\
    (g_paddr g = None -> paddr = p_paddr (g_hdr g)) /\
    (forall i sec, g_paddr g = Some i -> In i (g_sections g) -> nth_error ss i = Some sec -> paddr = u32 (sh_offset (s_hdr sec) + u32 p)).
Proof.
  intros P N D. unfold write_segment. destruct (g_sections g) as [| j js] eqn:E; [contradiction |]. rewrite <- E in *. clear N. cbv zeta.
  set (a := Z.max _ 16). clearbody a. destruct (align_more a out) as (more & ->). set (p := size (out ++ more)).
  set (ss' := fold_left (fun ss i => change_nth i (setOffsetBase (u32 p)) ss) (g_sections g) ss).
  assert (C : forall i sec, nth_error ss i = Some sec -> nth_error ss' i = Some (if in_dec Nat.eq_dec i (g_sections g) then setOffsetBase (u32 p) sec else sec)) by (intros i sec I; apply change_all; assumption).
  do 4 eexists. split; [reflexivity |]. split; [apply parts_item, parts_more, P |]. split; [apply change_all_length |]. split; [exact C |]. split.
  - intros Q. rewrite Q. reflexivity.
  - intros i sec Q I Z. rewrite Q, (C i sec Z). destruct (in_dec Nat.eq_dec i (g_sections g)); [reflexivity | contradiction].
Qed.
Lemma write_segments_done gs : forall out ss ts is, parts out ts is -> Forall (fun g => g_sections g <> [] /\ NoDup (g_sections g)) gs -> ForallOrdPairs strange gs ->
  exists ps out' ss' gs' is', write_segments out ss gs = (out', ss', gs') /\ parts out' ts is' /\ incl is is' /\ List.length gs' = List.length gs /\ List.length ss' = List.length ss /\
    (forall k g, nth_error gs k = Some g -> exists p paddr, nth_error ps k = Some p /\
       nth_error gs' k = Some (mkSegment (with_place (u32 p) paddr (g_hdr g)) (g_data g) (g_sections g) (g_paddr g)) /\ In (p, g_data g) is' /\
       (g_paddr g = None -> paddr = p_paddr (g_hdr g)) /\
       (forall i sec, g_paddr g = Some i -> In i (g_sections g) -> nth_error ss i = Some sec -> paddr = u32 (sh_offset (s_hdr sec) + u32 p)) /\
       (forall i sec, In i (g_sections g) -> nth_error ss i = Some sec -> nth_error ss' i = Some (setOffsetBase (u32 p) sec))) /\
    (forall i sec, nth_error ss i = Some sec -> (forall g, In g gs -> ~ In i (g_sections g)) -> nth_error ss' i = Some sec).
Proof.
  induction gs as [| g gs IH]; intros out ss ts is P F O.
  - exists [], out, ss, [], is. split; [reflexivity |]. split; [exact P |]. split; [apply incl_refl |]. split; [reflexivity |]. split; [reflexivity |]. split; [intros [|] g E; discriminate E |].
    intros i sec E _. exact E.
  - inversion F as [| ? ? (Ne & Nd) F']; subst. inversion O as [| ? ? Og O']; subst. rewrite Forall_forall in Og.
    destruct (write_segment_done out ss g ts is P Ne Nd) as (p & out1 & ss1 & paddr & E1 & P1 & L1 & C1 & A1 & B1).
    destruct (IH out1 ss1 ts ((p, g_data g) :: is) P1 F' O') as (ps & out2 & ss2 & gs2 & is2 & E2 & P2 & I2 & G2 & L2 & K2 & C2).
    exists (p :: ps), out2, ss2, (mkSegment (with_place (u32 p) paddr (g_hdr g)) (g_data g) (g_sections g) (g_paddr g) :: gs2), is2. cbn [write_segments]. rewrite E1, E2.
    split; [reflexivity |]. split; [exact P2 |]. split; [intros y Y; apply I2; right; exact Y |]. split; [cbn [List.length]; lia |]. split; [lia |]. split.
    + intros [| k] g' E.
      * injection E as <-. exists p, paddr. split; [reflexivity |]. split; [reflexivity |]. split; [apply I2; left; reflexivity |]. split; [exact A1 |]. split; [exact B1 |].
        intros i sec I S. apply C2; [| intros g' G; exact (Og g' G i I)]. rewrite (C1 i sec S). destruct (in_dec Nat.eq_dec i (g_sections g)); [reflexivity | contradiction].
      * destruct (K2 k g' E) as (p' & paddr' & Q1 & Q2 & Q3 & Q4 & Q5 & Q6). assert (In' : In g' gs) by (eapply nth_error_In; exact E).
        assert (U : forall i sec, In i (g_sections g') -> nth_error ss i = Some sec -> nth_error ss1 i = Some sec).
        { intros i sec I S. rewrite (C1 i sec S). destruct (in_dec Nat.eq_dec i (g_sections g)) as [J | J]; [elim (Og g' In' i J I) | reflexivity]. }
        exists p', paddr'. split; [exact Q1 |]. split; [exact Q2 |]. split; [exact Q3 |]. split; [exact Q4 |]. split.
        -- intros i sec A B C. apply (Q5 i sec A B). apply U; assumption.
        -- intros i sec A B. apply Q6; [exact A |]. apply U; assumption.
    + intros i sec S N. apply C2; [| intros g' G; apply N; right; exact G]. rewrite (C1 i sec S). destruct (in_dec Nat.eq_dec i (g_sections g)) as [J | J]; [elim (N g (or_introl eq_refl) J) | reflexivity].
Qed.

Lemma write_looses_done l : forall out ss ts is, parts out ts is -> NoDup l ->
  exists (lp : nat -> Z) out' ss' is', write_looses out ss l = (out', ss') /\ parts out' ts is' /\ incl is is' /\ List.length ss' = List.length ss /\
    forall i sec, nth_error ss i = Some sec ->
      (In i l -> if sh_type (s_hdr sec) =? SHT_NULL then nth_error ss' i = Some sec
                 else nth_error ss' i = Some (with_header (with_offset (u32 (lp i)) (s_hdr sec)) sec) /\ In (lp i, s_data sec) is') /\
      (~ In i l -> nth_error ss' i = Some sec).
Proof.
  induction l as [| j l IH]; intros out ss ts is P N.
  - exists (fun _ => 0), out, ss, is. split; [reflexivity |]. split; [exact P |]. split; [apply incl_refl |]. split; [reflexivity |]. intros i sec E. split; [intros [] | intros _; exact E].
  - inversion N as [| ? ? N1 N2]; subst. cbn [write_looses]. destruct (nth_error ss j) as [s |] eqn:E.
    + unfold write_loose. destruct (Z.eqb_spec (sh_type (s_hdr s)) SHT_NULL) as [T | T].
      * destruct (IH out (change_nth j (fun _ => s) ss) ts is P N2) as (lp & out' & ss' & is' & E' & P' & I' & L' & C'). rewrite change_nth_length in L'.
        assert (U : forall i, nth_error (change_nth j (fun _ => s) ss) i = nth_error ss i) by (intros i; rewrite change_nth_at; destruct (Nat.eqb_spec i j) as [-> | ]; [rewrite E |]; reflexivity).
        exists lp, out', ss', is'. split; [exact E' |]. split; [exact P' |]. split; [exact I' |]. split; [exact L' |]. intros i sec S. specialize (C' i sec). rewrite U in C'. destruct (C' S) as (A & B). split.
        -- intros [-> | I]; [| apply A, I]. rewrite E in S. injection S as <-. rewrite (proj2 (Z.eqb_eq _ _) T). apply B, N1.
        -- intros Q. apply B. intros I. apply Q. right. exact I.
      * set (out1 := if sh_addralign (s_hdr s) =? 4294967295 then out else alignSize (sh_addralign (s_hdr s)) out).
        assert (M : exists more, out1 = out ++ more) by (unfold out1; destruct (sh_addralign (s_hdr s) =? 4294967295); [exists []; symmetry; apply app_nil_r | apply align_more]).
        destruct M as (more & M). assert (P1 : parts out1 ts is) by (rewrite M; apply parts_more, P).
        set (s' := with_header (with_offset (u32 (size out1)) (s_hdr s)) s).
        destruct (IH (out1 ++ s_data s) (change_nth j (fun _ => s') ss) ts ((size out1, s_data s) :: is) (parts_item _ _ _ _ P1) N2) as (lp & out' & ss' & is' & E' & P' & I' & L' & C'). rewrite change_nth_length in L'.
        exists (fun i => if Nat.eqb i j then size out1 else lp i), out', ss', is'. split; [exact E' |]. split; [exact P' |]. split; [intros y Y; apply I'; right; exact Y |]. split; [exact L' |].
        intros i sec S. destruct (Nat.eqb_spec i j) as [-> | D].
        -- assert (V : nth_error (change_nth j (fun _ => s') ss) j = Some s') by (rewrite change_nth_at, Nat.eqb_refl, E; reflexivity). destruct (C' j s' V) as (_ & B).
           rewrite E in S. injection S as <-. split; [| intros Q; elim Q; left; reflexivity]. intros _. destruct (Z.eqb_spec (sh_type (s_hdr s)) SHT_NULL); [contradiction |].
           split; [apply B, N1 | apply I'; left; reflexivity].
        -- assert (V : nth_error (change_nth j (fun _ => s') ss) i = Some sec) by (rewrite change_nth_at; destruct (Nat.eqb_spec i j); [contradiction | exact S]). destruct (C' i sec V) as (A & B).
           split; [intros [I | I]; [elim D; symmetry; exact I | apply A, I] | intros Q; apply B; intros I; apply Q; right; exact I].
    + destruct (IH out ss ts is P N2) as (lp & out' & ss' & is' & E' & P' & I' & L' & C'). exists lp, out', ss', is'. split; [exact E' |]. split; [exact P' |]. split; [exact I' |]. split; [exact L' |].
      intros i sec S. destruct (C' i sec S) as (A & B). split; [intros [-> | I]; [congruence | apply A, I] | intros Q; apply B; intros I; apply Q; right; exact I].
Qed.
