(** Property theorems: C29 (UTF-8) and C58 (lines of text files). *)

Require Import ZArith List Bool Lia ZifyBool String.
From Verif Require Import Ints Res ReaderModel ReaderSpec ReaderProofs ReaderTokenProofs LexModel.
Import ListNotations.
Local Open Scope Z_scope.

(** ** C29 *)

(** Both encoders produce the UTF-8 of the standard. *)
Theorem C29_encode : forall c, is_char c -> utf8_encode c = utf8 c.
Proof. exact utf8_encode_eq. Qed.

(** Reading from memory: after the bytes of a character exactly those bytes are consumed, whatever
    follows, and no error is recorded. *)
Theorem C29_decode : forall sjis c before after, is_char c ->
  let content := before ++ utf8_encode c ++ after in
  let at_pos n := mkFile true content UTF8 n [] 0 0 false false in
  read_value sjis (at_pos (List.length before))
  = ROk (c, at_pos (List.length before + List.length (utf8_encode c))%nat).
Proof. exact memory_value. Qed.

(** The tokenizer decodes character constants alike. *)
Theorem C29_tokenizer : forall c rest, is_char c ->
  decode_utf8 (byte_string (utf8_encode c) rest) = ROk (c, rest).
Proof. intros c rest H. rewrite utf8_encode_eq by exact H. exact (decode_utf8_char c rest H). Qed.

(** Distinct characters have distinct encodings, and none is a prefix of another. *)
Theorem C29_prefix_free : forall c d after1 after2, is_char c -> is_char d ->
  utf8_encode c ++ after1 = utf8_encode d ++ after2 -> c = d /\ after1 = after2.
Proof.
  intros c d r1 r2 Hc Hd. rewrite !utf8_encode_eq by assumption. exact (utf8_prefix_free c d r1 r2 Hc Hd).
Qed.

Example C29_ex : is_char 0x20AC /\ utf8_encode 0x20AC = [0xE2; 0x82; 0xAC] /\
  is_char 0x7FF /\ utf8_encode 0x7FF = [0xDF; 0xBF].
Proof. unfold is_char. repeat split; lia. Qed.

(** ** C58 *)

(** Texts in memory: exactly the lines, in UTF-8 whatever the terminators are. *)
Theorem C58_memory : forall sjis t fuel, good_text t -> (List.length (characters t) < fuel)%nat ->
  exists f, read_all sjis fuel (open_memory (encoded Utf8 t)) = ROk (utf8_lines t, f) /\ f_error f = false.
Proof.
  intros sjis t fuel H Hf.
  apply (read_all_text sjis fuel _ true UTF8 false Utf8 t eq_refl); try tauto.
  - split; [exact H|discriminate].
  - apply reads_open_memory.
Qed.

(** Files with a byte order mark, whatever encoding was asked for. *)
Theorem C58_file_marked_partial : forall sjis s t d fuel, good_text t -> no_stray_cr t ->
  (3 <= List.length (mark s ++ encoded s t))%nat -> (List.length (characters t) < fuel)%nat ->
  exists f, read_all sjis fuel (open_file (mark s ++ encoded s t) d) = ROk (utf8_lines t, f) /\ f_error f = false.
Proof.
  intros sjis s t d fuel H Hcr L Hf.
  apply (read_all_text sjis fuel _ false (encoding_of s) false s t (scheme_encoding s)).
  - discriminate.
  - split; [exact H|intros _; exact Hcr].
  - exact Hf.
  - apply reads_open_mark. exact L.
Qed.

(** Files in UTF-8 without a mark. *)
Theorem C58_file_partial : forall sjis t d fuel, good_text t -> no_stray_cr t ->
  hd 0 (characters t) <> 0xFEFF -> d = GUESS \/ d = UTF8 ->
  (3 <= List.length (encoded Utf8 t))%nat -> (List.length (characters t) < fuel)%nat ->
  exists f, read_all sjis fuel (open_file (encoded Utf8 t) d) = ROk (utf8_lines t, f) /\ f_error f = false.
Proof.
  intros sjis t d fuel H Hcr Hm Hd L Hf.
  apply (read_all_text sjis fuel _ false UTF8 false Utf8 t eq_refl).
  - discriminate.
  - split; [exact H|intros _; exact Hcr].
  - exact Hf.
  - assert (Hall : Forall is_char (characters t)).
    { destruct H as [H1 H2]. unfold characters. apply Forall_app. split; [|apply is_line_char; exact H2].
      apply Forall_flat_map. apply Forall_forall. intros [l0 k0] Hin.
      destruct (H1 l0 k0 Hin) as [Hl0 _]. apply Forall_app. split; [apply is_line_char; assumption|].
      destruct k0; repeat constructor; unfold is_char, CR, LF; lia. }
    unfold encoded in *. destruct (characters t) as [|c cs]; [cbn in L; lia|].
    inversion Hall; subst. cbn [hd flat_map encode] in *.
    apply reads_open_plain; [exact L|apply utf8_first; assumption|apply utf8_not_mark; assumption|exact Hd].
Qed.

(** A CR that is not followed by LF swallows the next character of a file. *)
Theorem C58_stray_cr_refuted : forall sjis,
  let t := mkText [] [97; CR; 98; 99] in
  good_text t /\
  (exists f, read_all sjis 10 (open_memory (encoded Utf8 t)) = ROk ([[97; 13; 98; 99]], f)) /\
  (exists f, read_all sjis 10 (open_file (encoded Utf8 t) GUESS) = ROk ([[97; 13; 99]], f)).
Proof.
  intros sjis t. split; [|split].
  - split; [intros l k []|]. repeat constructor; unfold is_char, CR, LF; lia.
  - vm_compute. eexists. reflexivity.
  - vm_compute. eexists. reflexivity.
Qed.

(** The encoding ASCII reads half of the file. *)
Theorem C58_ascii_refuted : forall sjis,
  exists f, read_all sjis 10 (open_file [97; 98; 99; 100; 101; 102] ASCII) = ROk ([[97; 98; 99]], f).
Proof. intros sjis. vm_compute. eexists. reflexivity. Qed.

(** A file of one or two bytes is never read to the end: no bound suffices. *)
Theorem C58_short_file_refuted : forall sjis content,
  (1 <= List.length content <= 2)%nat -> content <> [0xFE; 0xFF] -> content <> [0xFF; 0xFE] ->
  forall fuel, read_all sjis fuel (open_file content GUESS) = RErr.
Proof. intros sjis content L N1 N2 fuel. apply stuck_all. apply short_file; assumption. Qed.

Definition ex_text : text := mkText [([97; 0x20AC], true); ([], false); ([98; 99], false)] [100].
Example C58_ex : good_text ex_text /\ no_stray_cr ex_text /\
  encoded Utf16be ex_text = [0; 97; 0x20; 0xAC; 0; 13; 0; 10; 0; 10; 0; 98; 0; 99; 0; 10; 0; 100] /\
  utf8_lines ex_text = [[97; 0xE2; 0x82; 0xAC]; []; [98; 99]; [100]].
Proof.
  split; [|split; [|split; reflexivity]].
  - split.
    + intros l k [H|[H|[H|[]]]]; injection H as <- <-; (split; [repeat constructor; unfold is_char, LF; lia|]);
        intros; unfold LF, CR; cbn; lia.
    + repeat constructor; unfold is_char, LF; lia.
  - split.
    + intros l k [H|[H|[H|[]]]]; injection H as <- <-; unfold CR; cbn; lia.
    + unfold CR; cbn; lia.
Qed.
Example C58_ex_cr : good_text (mkText [([13; 97], true)] [13]) /\
  read_all (fun _ => None) 9 (open_memory [13; 97; 13; 10; 13]) = ROk ([[13; 97]; [13]],
    mkFile true [13; 97; 13; 10; 13] UTF8 5 [] 0 0 false false).
Proof.
  split; [|reflexivity]. split.
  - intros l k [H|[]]; injection H as <- <-. split; [repeat constructor; unfold is_char, LF; lia|discriminate].
  - repeat constructor; unfold is_char, LF; lia.
Qed.

Print Assumptions C29_encode.
Print Assumptions C29_decode.
Print Assumptions C29_tokenizer.
Print Assumptions C29_prefix_free.
Print Assumptions C58_memory.
Print Assumptions C58_file_marked_partial.
Print Assumptions C58_file_partial.
Print Assumptions C58_stray_cr_refuted.
Print Assumptions C58_ascii_refuted.
Print Assumptions C58_short_file_refuted.
