(** Proofs for reading ELF files. *)

Require Import ZArith Lia Bool String List.
Require Import ZifyBool.
Require Import Verif.Ints Verif.IntsLemmas Verif.Res Verif.BytesSpec Verif.ElfModel Verif.PsxModel Verif.ElfReadModel Verif.ElfReadSpec.
Import ListNotations.
Local Open Scope Z_scope.

(** ** Bytes in files *)

Lemma size_app (a b : list Z) : size (a ++ b) = size a + size b.
Proof. unfold size. rewrite app_length. lia. Qed.
Lemma size_nonneg (a : list Z) : 0 <= size a.
Proof. unfold size. lia. Qed.
Lemma firstn_plus {A} (l : list A) n m : firstn (n + m) l = firstn n l ++ firstn m (skipn n l).
Proof. revert l. induction n as [| n IH]; intros l; [reflexivity |]. destruct l as [| x l]; [destruct m; reflexivity |]. cbn. rewrite IH. reflexivity. Qed.
Lemma skipn_plus {A} (l : list A) n m : skipn n (skipn m l) = skipn (m + n) l.
Proof. revert l. induction m as [| m IH]; intros l; [reflexivity |]. destruct l as [| x l]; [destruct n; reflexivity |]. cbn. apply IH. Qed.
Lemma firstn_len {A} (l x : list A) : firstn (List.length x) l = x -> (List.length x <= List.length l)%nat.
Proof. intros H. assert (L := firstn_le_length (List.length x) l). rewrite <- H at 1. rewrite firstn_length. lia. Qed.

Lemma has_app d pos x y : has d pos (x ++ y) <-> has d pos x /\ has d (pos + size x) y.
Proof.
  unfold has, size. rewrite app_length, firstn_plus, skipn_plus.
  split.
  - intros (P & H). assert (L : (List.length (x ++ y) <= List.length (skipn (Z.to_nat pos) d))%nat).
    { apply firstn_len. rewrite app_length, firstn_plus, skipn_plus. exact H. }
    rewrite app_length in L.
    assert (E : List.length (firstn (List.length x) (skipn (Z.to_nat pos) d)) = List.length x) by (rewrite firstn_length; lia).
    assert (X : firstn (List.length x) (skipn (Z.to_nat pos) d) = x /\ firstn (List.length y) (skipn (Z.to_nat pos + List.length x) d) = y).
    { remember (firstn (List.length x) (skipn (Z.to_nat pos) d)) as u. remember (firstn (List.length y) (skipn (Z.to_nat pos + List.length x) d)) as v.
      clear - E H. revert x E H. induction u as [| a u IH]; intros [| b x] E H; try discriminate E; [split; [reflexivity | exact H] |].
      cbn in H. injection H as -> H. cbn in E. destruct (IH x) as (A & B); [lia | exact H |]. subst. split; reflexivity. }
    destruct X as (X & Y). split; [split; assumption |]. split; [lia |].
    replace (Z.to_nat (pos + Z.of_nat (List.length x))) with (Z.to_nat pos + List.length x)%nat by lia. exact Y.
  - intros ((P & X) & (_ & Y)). split; [exact P |]. rewrite X.
    replace (Z.to_nat (pos + Z.of_nat (List.length x))) with (Z.to_nat pos + List.length x)%nat in Y by lia. rewrite Y. reflexivity.
Qed.
Lemma has_size d pos x : has d pos x -> x <> [] -> pos + size x <= size d.
Proof.
  intros (P & H) N. apply firstn_len in H. rewrite skipn_length in H. unfold size. destruct x; [contradiction |]. cbn in *. lia.
Qed.
Lemma has_nil d pos : 0 <= pos -> has d pos [].
Proof. intros P. split; [exact P | reflexivity]. Qed.

Lemma le2 v : le_bytes 2 v = [v mod 256; v / 256 mod 256].
Proof. reflexivity. Qed.
Lemma le4 v : le_bytes 4 v = [v mod 256; v / 256 mod 256; v / 256 / 256 mod 256; v / 256 / 256 / 256 mod 256].
Proof. reflexivity. Qed.
Lemma four_size big v : List.length (four big v) = 4%nat.
Proof. destruct big; reflexivity. Qed.
Lemma two_size big v : List.length (two big v) = 2%nat.
Proof. destruct big; reflexivity. Qed.
Lemma size_four big v : size (four big v) = 4.
Proof. unfold size. rewrite four_size. reflexivity. Qed.
Lemma size_two big v : size (two big v) = 2.
Proof. unfold size. rewrite two_size. reflexivity. Qed.
Lemma compose_four big v : is_word v -> compose big (four big v) = v.
Proof.
  unfold is_word. intros R. unfold four, encode_bytes. rewrite le4. rewrite !Z.div_div by lia. destruct big; cbn [rev app compose].
  - change (256 * 256 * 256) with 16777216. change (256 * 256) with 65536. lia.
  - change (256 * 256 * 256) with 16777216. change (256 * 256) with 65536. lia.
Qed.
Lemma word_has big d pos v : has d pos (four big v) -> is_word v -> word big d pos = v.
Proof.
  intros H R. assert (S := has_size _ _ _ H). rewrite size_four in S. assert (N : four big v <> []) by (destruct big; discriminate). specialize (S N).
  unfold word. destruct (Z.geb_spec (pos + 3) (size d)); [lia |]. destruct H as (P & H). rewrite four_size in H. rewrite H. apply compose_four, R.
Qed.
Lemma half_has big d pos v : has d pos (two big v) -> is_half v -> half big d pos = v.
Proof.
  intros H R. assert (S := has_size _ _ _ H). rewrite size_two in S. assert (N : two big v <> []) by (destruct big; discriminate). specialize (S N).
  unfold half. destruct (Z.geb_spec (pos + 1) (size d)); [lia |]. destruct H as (P & H). rewrite two_size in H. rewrite H.
  unfold is_half in R. unfold two, encode_bytes. rewrite le2. destruct big; cbn [rev app]; lia.
Qed.
Lemma get_has d pos b : has d pos [b] -> get d pos = ROk b.
Proof.
  intros (P & H). unfold get. destruct (Z.ltb_spec pos 0); [lia |]. cbn [List.length] in H.
  assert (E : forall (l : list Z) n, firstn 1 (skipn n l) = [b] -> nth_error l n = Some b).
  { induction l as [| x l IH]; intros [| n] Q; cbn in Q; try discriminate Q; [injection Q as ->; reflexivity | apply IH, Q]. }
  rewrite (E _ _ H). reflexivity.
Qed.
Lemma mid_has d pos x : has d pos x -> mid d pos (size x) = ROk x.
Proof.
  intros H. destruct x as [| b x].
  - unfold mid. destruct (pos >=? size d) eqn:G; [reflexivity |]. change (size []) with 0. change (0 <? 0) with false. cbv iota zeta.
    destruct (Z.ltb_spec (size d) (pos + 0)); [lia |]. reflexivity.
  - assert (S := has_size _ _ _ H ltac:(discriminate)). destruct H as (P & H). unfold mid. assert (L : 0 < size (b :: x)) by (unfold size; cbn; lia).
    destruct (Z.geb_spec pos (size d)); [lia |]. destruct (Z.ltb_spec (size (b :: x)) 0); [lia |]. destruct (Z.ltb_spec (size d) (pos + size (b :: x))); [lia |].
    unfold size at 1. rewrite Nat2Z.id. rewrite H. reflexivity.
Qed.
Lemma has_pos d pos x pos' : has d pos x -> pos = pos' -> has d pos' x.
Proof. intros H <-. exact H. Qed.

(** ** Headers *)

Lemma words_has big d pos l : has d pos (flat_map (four big) l) -> Forall is_word l -> forall k v, nth_error l k = Some v -> word big d (pos + 4 * Z.of_nat k) = v.
Proof.
  revert pos. induction l as [| x l IH]; intros pos H F [| k] v E; cbn in E; try discriminate E.
  - injection E as ->. cbn [flat_map] in H. apply has_app in H. destruct H as (H & _). apply word_has; [apply (has_pos _ _ _ _ H); lia | inversion F; assumption].
  - cbn [flat_map] in H. apply has_app in H. destruct H as (_ & H). rewrite size_four in H. inversion F; subst.
    rewrite <- (IH _ H ltac:(assumption) k v E). f_equal. lia.
Qed.
Lemma shdr_read big d pos h : has d pos (shdr_bytes big h) -> fine_shdr h -> loadSectionHeader big d pos = h.
Proof.
  intros H F. assert (W := words_has _ _ _ _ H F). unfold loadSectionHeader. destruct h. unfold shdr_fields in W. cbn in W.
  rewrite <- (W 0%nat _ eq_refl), <- (W 1%nat _ eq_refl), <- (W 2%nat _ eq_refl), <- (W 3%nat _ eq_refl), <- (W 4%nat _ eq_refl), <- (W 5%nat _ eq_refl),
    <- (W 6%nat _ eq_refl), <- (W 7%nat _ eq_refl), <- (W 8%nat _ eq_refl), <- (W 9%nat _ eq_refl). cbn [Z.of_nat Pos.of_succ_nat Pos.succ].
  change (4 * 0) with 0. rewrite Z.add_0_r. reflexivity.
Qed.
Lemma phdr_read big d pos h : has d pos (phdr_bytes big h) -> fine_phdr h -> loadProgramHeader big d pos = h.
Proof.
  intros H F. assert (W := words_has _ _ _ _ H F). unfold loadProgramHeader. destruct h. unfold phdr_fields in W. cbn in W.
  rewrite <- (W 0%nat _ eq_refl), <- (W 1%nat _ eq_refl), <- (W 2%nat _ eq_refl), <- (W 3%nat _ eq_refl), <- (W 4%nat _ eq_refl), <- (W 5%nat _ eq_refl),
    <- (W 6%nat _ eq_refl), <- (W 7%nat _ eq_refl). cbn [Z.of_nat Pos.of_succ_nat Pos.succ].
  change (4 * 0) with 0. rewrite Z.add_0_r. reflexivity.
Qed.
Lemma ehdr_read big d h : has d 0 (ehdr_bytes big h) -> fine_ehdr big h -> loadElfHeader d = ROk h.
Proof.
  intros H (L & B & Hs & Ws). unfold ehdr_bytes in H.
  assert (S : size (e_ident h) = 16) by (unfold size; rewrite L; reflexivity).
  repeat (apply has_app in H; let X := fresh "X" in destruct H as (X & H); rewrite ?S, ?size_two, ?size_four in H).
  assert (I : firstn 16 d = e_ident h) by (destruct X as (_ & X); rewrite L in X; exact X).
  unfold loadElfHeader. assert (16 <= size d). { assert (Q := has_size _ _ _ X). rewrite S in Q. destruct (e_ident h); [discriminate L |]. specialize (Q ltac:(discriminate)). lia. }
  destruct (Z.ltb_spec (size d) 16); [lia |]. rewrite I, B. cbv zeta.
  repeat match goal with Q : Forall _ (_ :: _) |- _ => inversion Q; clear Q; subst end.
  repeat match goal with
  | Q : has d ?p (two _ ?v) |- _ => let p' := eval vm_compute in p in change p with p' in Q; apply half_has in Q; [| assumption]; rewrite Q; clear Q
  | Q : has d ?p (four _ ?v) |- _ => let p' := eval vm_compute in p in change p with p' in Q; apply word_has in Q; [| assumption]; rewrite Q; clear Q
  end. destruct h; reflexivity.
Qed.

(** ** Sections *)

Definition raw (big : bool) (s : osec) : section := mkSection (os_hdr s) [] (content big s) false.
Fixpoint last_symtab (i : nat) (ss : list osec) (acc : option nat) : option nat :=
  match ss with [] => acc | s :: ss => last_symtab (S i) ss (if sh_type (os_hdr s) =? SHT_SYMTAB then Some i else acc) end.
Fixpoint last_strtab (k : Z) (i : nat) (ss : list osec) (acc : option nat) : option nat :=
  match ss with
  | [] => acc
  | s :: ss => last_strtab k (S i) ss (if sh_type (os_hdr s) =? SHT_STRTAB then match acc with None => Some i | Some _ => if Z.of_nat i =? k then acc else Some i end else acc)
  end.

Lemma shdr_size big h : size (shdr_bytes big h) = 40.
Proof. unfold shdr_bytes, size. rewrite (flat_map_concat_map). destruct big; reflexivity. Qed.
Lemma content_read big d s pos : section_in big d pos s ->
  (if (sh_type (os_hdr s) =? SHT_NOBITS) || (sh_type (os_hdr s) =? SHT_NULL) then ROk [] else mid d (sh_offset (os_hdr s)) (sh_size (os_hdr s))) = ROk (content big s).
Proof.
  intros [Hd Fn Bd Dt No]. destruct ((sh_type (os_hdr s) =? SHT_NOBITS) || (sh_type (os_hdr s) =? SHT_NULL)) eqn:E.
  - unfold content. rewrite No; [reflexivity |]. unfold no_bits. apply orb_prop in E. rewrite !Z.eqb_eq in E. tauto.
  - apply orb_false_elim in E. rewrite !Z.eqb_neq in E. destruct Dt as (H & S); [unfold no_bits; tauto |]. rewrite S. apply mid_has, H.
Qed.
Lemma sections_read big d shoff es k : size d < 2147483648 -> 0 <= shoff -> 0 <= es -> forall ss i acc st tt,
  (forall j s, nth_error ss j = Some s -> section_in big d (shoff + Z.of_nat (i + j) * es) s) -> List.length acc = i ->
  load_sections big d shoff es k (List.length ss) (Z.of_nat i) (mkL [] (map (raw big) acc) (seq 0 i) st tt true)
  = ROk (mkL [] (map (raw big) (acc ++ ss)) (seq 0 (i + List.length ss)) (last_symtab i ss st) (last_strtab k i ss tt) true).
Proof.
  intros B P Q. induction ss as [| s ss IH]; intros i acc st tt H L.
  - cbn [List.length load_sections last_symtab last_strtab]. rewrite app_nil_r, Nat.add_0_r. reflexivity.
  - assert (I := H 0%nat s eq_refl). rewrite Nat.add_0_r in I. assert (C := content_read _ _ _ _ I). destruct I as [Hd Fn _ _ _].
    assert (Sz := has_size _ _ _ Hd). rewrite shdr_size in Sz. specialize (Sz ltac:(destruct big; discriminate)).
    cbn [List.length load_sections]. unfold header_pos. destruct (Z.ltb_spec (Z.of_nat i * es) 2147483648); [| lia]. cbn [rbind].
    rewrite u32_small by lia. rewrite (shdr_read _ _ _ _ Hd Fn). unfold load_section at 1. cbn [l_segments l_sections l_loose l_symtab l_strtab l_ok find_owner rbind fst snd].
    rewrite C. cbn [rbind]. rewrite map_length, L. cbn [andb]. replace (Z.of_nat i + 1) with (Z.of_nat (S i)) by lia.
    replace (map (raw big) acc ++ [mkSection (os_hdr s) [] (content big s) false]) with (map (raw big) (acc ++ [s])) by (rewrite map_app; reflexivity).
    replace (seq 0 i ++ [i]) with (seq 0 (S i)) by (rewrite seq_S; reflexivity).
    rewrite IH.
    + rewrite <- app_assoc. cbn [app last_symtab last_strtab]. replace (S i + List.length ss)%nat with (i + S (List.length ss))%nat by lia. reflexivity.
    + intros j t E. replace (S i + j)%nat with (i + S j)%nat by lia. apply H. exact E.
    + rewrite app_length. cbn. lia.
Qed.

(** ** Names *)

Lemma c_chars_read name l : ~ In 0 name -> c_chars (name ++ 0 :: l) = ROk name.
Proof.
  induction name as [| c name IH]; intros N; [reflexivity |]. cbn [app c_chars]. destruct (Z.eqb_spec c 0) as [-> | C]; [elim N; left; reflexivity |].
  rewrite IH by (intros I; apply N; right; exact I). reflexivity.
Qed.
Lemma c_string_read d pos name : has d pos (name ++ [0]) -> ~ In 0 name -> c_string d pos = ROk name.
Proof.
  intros (P & H) N. unfold c_string. destruct (Z.ltb_spec pos 0); [lia |].
  assert (E : exists l, skipn (Z.to_nat pos) d = name ++ 0 :: l).
  { exists (skipn (List.length (name ++ [0])) (skipn (Z.to_nat pos) d)). rewrite <- (firstn_skipn (List.length (name ++ [0])) (skipn (Z.to_nat pos) d)) at 1.
    rewrite H. rewrite <- app_assoc. reflexivity. }
  destruct E as (l & ->). apply c_chars_read, N.
Qed.
Lemma has_inside d pos x p y : has d pos x -> has x p y -> has d (pos + p) y.
Proof.
  intros (P & X) (Q & Y). split; [lia |]. destruct y as [| b y]; [reflexivity |].
  assert (S := has_size _ _ _ (conj Q Y) ltac:(discriminate)). unfold size in S.
  replace (Z.to_nat (pos + p)) with (Z.to_nat pos + Z.to_nat p)%nat by lia. rewrite <- skipn_plus.
  rewrite <- Y at 2. rewrite <- X. rewrite skipn_firstn_comm. rewrite firstn_firstn. f_equal. rewrite Nat.min_l; [reflexivity | lia].
Qed.
Lemma printable_read d : forall l pos, has d pos l -> Forall (fun b => b = 0 \/ 32 <= b < 128) l -> printable (List.length l) d pos = ROk true.
Proof.
  induction l as [| b l IH]; intros pos H F; [reflexivity |]. change (b :: l) with ([b] ++ l) in H. apply has_app in H. destruct H as (H & T).
  inversion F; subst. cbn [List.length printable]. rewrite (get_has _ _ _ H). cbn [rbind].
  destruct (Z.eqb_spec b 0); destruct (Z.ltb_spec b 32); destruct (Z.ltb_spec 127 b); cbn; try lia; apply IH; assumption.
Qed.
Definition named (big : bool) (s : osec) : section := mkSection (os_hdr s) (os_name s) (content big s) false.
Lemma set_names_read big d table content' : has d table content' -> size d < 2147483648 -> forall ss,
  Forall (fun s => if sh_type (os_hdr s) =? SHT_NULL then os_name s = [] else names content' (sh_name (os_hdr s)) (os_name s)) ss ->
  set_names d table (map (raw big) ss) = ROk (map (named big) ss).
Proof.
  intros H B. induction ss as [| s ss IH]; intros F; [reflexivity |]. inversion F as [| ? ? F1 F2]; subst. cbn [map set_names]. cbn [raw s_hdr s_data s_owned].
  destruct (sh_type (os_hdr s) =? SHT_NULL).
  - cbn [rbind]. rewrite IH by assumption. cbn [rbind]. unfold named at 2. rewrite F1. reflexivity.
  - destruct F1 as (N & Z0). assert (G := has_inside _ _ _ _ _ H N). assert (S := has_size _ _ _ G ltac:(destruct (os_name s); discriminate)).
    assert (0 < size (os_name s ++ [0])) by (rewrite size_app; change (size [0]) with 1; assert (V := size_nonneg (os_name s)); lia).
    destruct G as (G1 & G2). rewrite s32_small by lia. rewrite (c_string_read d (table + sh_name (os_hdr s)) _ (conj G1 G2) Z0). cbn [rbind]. rewrite IH by assumption. reflexivity.
Qed.
Lemma names_read big d h ss : file_of big d h ss -> loadSectionNames d (e_shstrndx h) (map (raw big) ss) = ROk (map (named big) ss).
Proof.
  intros F. assert (N := fo_names _ _ _ _ F). unfold section_names in N. unfold loadSectionNames. destruct (e_shstrndx h =? 0).
  - apply f_equal. apply map_ext_in. intros s I. rewrite Forall_forall in N. unfold raw, named. rewrite (N s I). reflexivity.
  - destruct N as (t & E & NB & PR & NM). rewrite nth_error_map, E. cbn [option_map raw s_hdr].
    destruct (si_data _ _ _ _ (fo_sections _ _ _ _ F _ _ E) NB) as (H & S). rewrite S.
    assert (G : sh_offset (os_hdr t) + size (content big t) <= size d \/ content big t = []).
    { destruct (content big t) eqn:C; [right; reflexivity |]. left. rewrite <- C in *. apply has_size; [exact H | rewrite C; discriminate]. }
    assert (D : set_names d (sh_offset (os_hdr t)) (map (raw big) ss) = ROk (map (named big) ss)) by (eapply set_names_read; [exact H | apply fo_size in F; exact F | exact NM]).
    destruct (Z.ltb_spec (size d) (sh_offset (os_hdr t) + size (content big t))).
    + destruct G as [G | G]; [lia |]. exfalso.
      (* an empty table has no names, but the table itself is a section with a name *)
      assert (I : In t ss) by (eapply nth_error_In; exact E). rewrite Forall_forall in NM. specialize (NM t I).
      destruct (Z.eqb_spec (sh_type (os_hdr t)) SHT_NULL) as [Q | Q]; [apply NB; left; exact Q |]. destruct NM as (NM & _). rewrite G in NM. apply has_size in NM; [| destruct (os_name t); discriminate].
      rewrite size_app in NM. change (size []) with 0 in NM. change (size [0]) with 1 in NM. assert (V := size_nonneg (os_name t)).
      assert (W := si_fine _ _ _ _ (fo_sections _ _ _ _ F _ _ E)). inversion W as [| ? ? W1 _]; subst. unfold is_word in W1. lia.
    + unfold size at 1. rewrite Nat2Z.id. rewrite (printable_read d _ _ H PR). cbn [rbind]. exact D.
Qed.

(** A file without segments is read. *)
Lemma load_read big d h ss : file_of big d h ss ->
  load_elf d = ROk (mkElf h [] (map (named big) ss) (seq 0 (List.length ss)) (last_symtab 0 ss None) (last_strtab (e_shstrndx h) 0 ss None) true).
Proof.
  intros F. assert (Fh := fo_fine _ _ _ _ F). unfold load_elf. rewrite (ehdr_read big d h (fo_header _ _ _ _ F) Fh). cbn [rbind].
  destruct Fh as (_ & -> & Hs & Ws). rewrite (fo_segments _ _ _ _ F). cbn [Z.to_nat loadSegments rbind]. rewrite (fo_count _ _ _ _ F), Nat2Z.id.
  assert (Q : load_sections big d (e_shoff h) (e_shentsize h) (e_shstrndx h) (List.length ss) 0 (mkL [] [] [] None None true)
    = ROk (mkL [] (map (raw big) ss) (seq 0 (List.length ss)) (last_symtab 0 ss None) (last_strtab (e_shstrndx h) 0 ss None) true)).
  { apply (sections_read big d (e_shoff h) (e_shentsize h) (e_shstrndx h)) with (i := 0%nat) (acc := []).
    - exact (fo_size _ _ _ _ F).
    - unfold is_word in Ws. rewrite Forall_forall in Ws. apply Ws. cbn. tauto.
    - unfold is_half in Hs. rewrite Forall_forall in Hs. apply Hs. cbn. tauto.
    - intros j s E. apply (fo_sections _ _ _ _ F), E.
    - reflexivity. }
  rewrite Q. cbn [rbind l_sections l_segments l_loose l_symtab l_strtab l_ok]. rewrite (names_read _ _ _ _ F). reflexivity.
Qed.

(** ** Objects *)

Lemma loose_all big ss h a b c : loose_sections (mkElf h [] (map (named big) ss) (seq 0 (List.length ss)) a b c) = map (named big) ss.
Proof.
  unfold loose_sections. cbn [f_sections f_loose].
  assert (G : forall pre l : list section, flat_map (fun i => match nth_error (pre ++ l) i with Some s => [s] | None => [] end) (seq (List.length pre) (List.length l)) = l).
  { intros pre l. revert pre. induction l as [| s l IH]; intros pre; [reflexivity |]. cbn [List.length seq flat_map]. rewrite nth_error_app2 by lia. rewrite Nat.sub_diag. cbn [nth_error app].
    f_equal. specialize (IH (pre ++ [s])). rewrite <- app_assoc in IH. rewrite app_length in IH. cbn [List.length app] in IH. rewrite Nat.add_1_r in IH. exact IH. }
  specialize (G [] (map (named big) ss)). rewrite map_length in G. exact G.
Qed.

Lemma rel_size big rela r : size (rel_bytes big rela r) = if rela then 12 else 8.
Proof. unfold rel_bytes. destruct rela; rewrite !size_app, !size_four; reflexivity. Qed.
Lemma rels_read big rela d : forall rs pos n, has d pos (flat_map (rel_bytes big rela) rs) -> Forall (fine_rel rela) rs -> (List.length rs <= n)%nat ->
  loadRelocations n big rela d pos (pos + size (flat_map (rel_bytes big rela) rs)) = ROk rs.
Proof.
  induction rs as [| r rs IH]; intros pos n H F L.
  - cbn [flat_map]. change (size []) with 0. rewrite Z.add_0_r. destruct n; cbn [loadRelocations]; rewrite Z.geb_leb, Z.leb_refl; reflexivity.
  - destruct n as [| n]; [cbn in L; lia |]. cbn [flat_map] in H. apply has_app in H. destruct H as (H & T). rewrite rel_size in T.
    inversion F as [| ? ? Fr Frs]; subst. cbn [loadRelocations flat_map]. rewrite size_app, rel_size.
    assert (V := size_nonneg (flat_map (rel_bytes big rela) rs)). destruct (Z.geb_spec pos (pos + ((if rela then 12 else 8) + size (flat_map (rel_bytes big rela) rs)))) as [X | X]; [destruct rela; lia |].
    rewrite Z.add_assoc. rewrite (IH _ n T Frs ltac:(cbn in L; lia)). cbn [rbind]. destruct Fr as (F1 & F2 & F3 & F4).
    unfold rel_bytes in H. apply has_app in H. destruct H as (A & H). rewrite size_four in H. apply has_app in H. destruct H as (B & C). rewrite size_four in C.
    assert (WB : is_word (r_sym r * 256 + r_type r)) by (unfold is_word; lia).
    rewrite (word_has _ _ _ _ A F1), (word_has _ _ _ _ B WB).
    replace ((r_sym r * 256 + r_type r) mod 256) with (r_type r) by (rewrite Z.add_comm, Z.mod_add by lia; symmetry; apply Z.mod_small; lia).
    replace ((r_sym r * 256 + r_type r) / 256) with (r_sym r) by (rewrite Z.add_comm, Z.div_add by lia; rewrite Z.div_small by lia; lia).
    replace (if rela then s32 (word big d (pos + 8)) else 0) with (r_addend r); [destruct r; reflexivity |].
    destruct rela; [| exact F4].
    assert (U : four big (r_addend r) = four big (u32 (r_addend r))).
    { unfold four, encode_bytes. replace (le_bytes 4 (u32 (r_addend r))) with (le_bytes 4 (r_addend r)); [reflexivity |]. rewrite !le4. unfold u32. clear. rewrite !Z.div_div by lia.
      change (256 * 256 * 256) with 16777216. change (256 * 256) with 65536. repeat (apply (f_equal2 (@cons Z)); [lia |]). reflexivity. }
    rewrite U in C. replace (pos + 4 + 4) with (pos + 8) in C by lia. rewrite (word_has _ _ _ _ C (u32_range _)). unfold is_int32 in F4. clear - F4. unfold s32, u32.
    destruct ((r_addend r mod 4294967296) mod 4294967296 <? 2147483648) eqn:E; lia.
Qed.
Lemma count_rels big rela rs : (List.length rs <= List.length (flat_map (rel_bytes big rela) rs))%nat.
Proof.
  induction rs as [| r rs IH]; [cbn; lia |]. cbn [flat_map List.length]. rewrite app_length. assert (H := rel_size big rela r). unfold size in H. destruct rela; lia.
Qed.
Lemma has_self (x : list Z) : has x 0 x.
Proof. split; [lia |]. cbn [Z.to_nat skipn]. apply firstn_all. Qed.
Lemma relocations_of_read big d pos s rs : section_in big d pos s -> os_body s = Relocations rs -> relocations_of big (named big s) = ROk rs.
Proof.
  intros [Hd Fn Bd Dt No] E. unfold fine_body in Bd. rewrite E in Bd. destruct Bd as (T & Fr).
  assert (NB : ~ no_bits s) by (unfold no_bits, SHT_NULL, SHT_NOBITS; unfold SHT_REL, SHT_RELA in T; lia).
  destruct (Dt NB) as (_ & S). unfold relocations_of. cbn [named s_hdr s_data]. rewrite S. unfold content. rewrite E. fold (is_rela s).
  change (size (flat_map (rel_bytes big (is_rela s)) rs)) with (0 + size (flat_map (rel_bytes big (is_rela s)) rs)) at 2. apply rels_read; [apply has_self | exact Fr |].
  unfold size. rewrite Nat2Z.id. apply count_rels.
Qed.
Lemma is_rel_body s : fine_body s -> ((sh_type (os_hdr s) =? SHT_REL) || (sh_type (os_hdr s) =? SHT_RELA)) = match os_body s with Relocations _ => true | _ => false end.
Proof. unfold fine_body, SHT_REL, SHT_RELA, SHT_SYMTAB. destruct (os_body s); lia. Qed.

Lemma find_relocations_read big d : forall ss k, Forall (fun s => exists pos, section_in big d pos s) ss -> one_each ss -> 0 <= k < 65536 ->
  match find_relocations (map (named big) ss) k with Some r => relocations_of big r | None => ROk [] end = ROk (relocations_for ss k).
Proof.
  induction ss as [| s ss IH]; intros k F O R; [reflexivity |]. inversion F as [| ? ? (pos & I) F2]; subst. destruct O as (O1 & O2). inversion O1 as [| ? ? O3 O4]; subst. inversion O2 as [| ? ? O5 O6]; subst.
  cbn [map find_relocations named s_hdr]. rewrite (is_rel_body _ (si_body _ _ _ _ I)).
  unfold relocations_for. cbn [flat_map]. fold (relocations_for ss k).
  assert (IHs := IH k F2 (conj O4 O6) R).
  destruct (os_body s) as [x | rs | ys] eqn:E; cbn [andb].
  - exact IHs.
  - assert (W := si_fine _ _ _ _ I). unfold fine_shdr in W. rewrite Forall_forall in W. assert (Wi := W (sh_info (os_hdr s)) ltac:(cbn; tauto)). unfold is_word in Wi.
    rewrite Z.mod_small by lia. destruct (Z.eqb_spec (sh_info (os_hdr s)) k) as [K | K]; [| exact IHs].
    rewrite (relocations_of_read _ _ _ _ _ I E). f_equal. replace (relocations_for ss k) with (@nil erel); [rewrite app_nil_r; reflexivity |].
    symmetry. unfold relocations_for. clear - O5 K. induction ss as [| t ss IH]; [reflexivity |]. inversion O5 as [| ? ? A B]; subst. cbn [flat_map]. rewrite (IH B).
    destruct (os_body t); try reflexivity. destruct (Z.eqb_spec (sh_info (os_hdr t)) (sh_info (os_hdr s))); [congruence | reflexivity].
  - exact IHs.
Qed.
Lemma relevant_same big s : fine_shdr (os_hdr s) -> is_relevant (named big s) = relevant s.
Proof.
  intros F. unfold is_relevant, relevant. cbn [named s_hdr existsb]. f_equal.
  - replace (Z.land (sh_flags (os_hdr s)) 2) with (if Z.testbit (sh_flags (os_hdr s)) 1 then 2 else 0); [destruct (Z.testbit (sh_flags (os_hdr s)) 1); reflexivity |].
    symmetry. apply Z.bits_inj'. intros n N. rewrite Z.land_spec. change 2 with (2 ^ 1). rewrite Z.pow2_bits_eqb by lia. destruct (Z.eqb_spec 1 n) as [<- | D].
    + destruct (Z.testbit (sh_flags (os_hdr s)) 1); reflexivity.
    + rewrite andb_false_r. destruct (Z.testbit (sh_flags (os_hdr s)) 1); [| rewrite Z.bits_0; reflexivity]. change 2 with (2 ^ 1). rewrite Z.pow2_bits_eqb by lia. destruct (Z.eqb_spec 1 n); [contradiction | reflexivity].
  - rewrite orb_false_r, orb_assoc. reflexivity.
Qed.
Lemma numbered_from {A} (l : list A) : forall i, combine (map Z.of_nat (seq i (List.length l))) l = match l with [] => [] | x :: l => (Z.of_nat i, x) :: combine (map Z.of_nat (seq (S i) (List.length l))) l end.
Proof. destruct l; reflexivity. Qed.
Lemma sections_init big d all : Forall (fun s => exists pos, section_in big d pos s) all -> one_each all -> Z.of_nat (List.length all) < 65536 -> forall ss i,
  Forall (fun s => exists pos, section_in big d pos s) ss -> (i + List.length ss <= List.length all)%nat ->
  init_sections big (map (named big) all) (map (named big) ss) (Z.of_nat i)
  = ROk (map (fun x => mkSec (fst x) (sh_type (os_hdr (snd x)) =? SHT_NOBITS) (sh_size (os_hdr (snd x))) (sh_addralign (os_hdr (snd x))) (content big (snd x)) (relocations_for all (fst x)))
             (filter (fun x => relevant (snd x)) (combine (map Z.of_nat (seq i (List.length ss))) ss))).
Proof.
  intros Fa O La. induction ss as [| s ss IH]; intros i F L; [reflexivity |]. inversion F as [| ? ? (pos & I) F2]; subst. cbn [List.length] in L.
  rewrite numbered_from. cbn [map init_sections filter snd]. rewrite (relevant_same _ _ (si_fine _ _ _ _ I)). replace (Z.of_nat i + 1) with (Z.of_nat (S i)) by lia.
  rewrite IH by (assumption || lia). destruct (relevant s); [| reflexivity]. rewrite (find_relocations_read big d all (Z.of_nat i) Fa O) by lia. reflexivity.
Qed.
Lemma ctors_init big : forall ss i, Forall (fun s => fine_shdr (os_hdr s)) ss -> init_ctors (map (named big) ss) (Z.of_nat i)
  = map (fun x => (fst x, sh_size (os_hdr (snd x)))) (filter (fun x => relevant (snd x) && existsb (fun n => if list_eq_dec Z.eq_dec n (os_name (snd x)) then true else false) ctor_names)
      (combine (map Z.of_nat (seq i (List.length ss))) ss)).
Proof.
  induction ss as [| s ss IH]; intros i F; [reflexivity |]. inversion F; subst. rewrite numbered_from. cbn [map init_ctors filter snd].
  replace (Z.of_nat i + 1) with (Z.of_nat (S i)) by lia. rewrite IH by assumption. unfold is_ctor. rewrite relevant_same by assumption. cbn [named s_name].
  destruct (relevant s && _); reflexivity.
Qed.

(** ** Symbols *)

Lemma sym_size big y : size (sym_bytes big y) = 16.
Proof. unfold sym_bytes. rewrite !size_app, !size_four, size_two. reflexivity. Qed.
Lemma symbol_read big d t y i : has d (i * 16) (sym_bytes big y) -> fine_sym y -> names (s_data t) (oy_pos y) (oy_name y) ->
  getSymbol big d (Some t) i = ROk (symbol_of y).
Proof.
  intros H (F1 & F2 & F3 & F4 & F5 & F6 & F7) (N & Z0). unfold sym_bytes in H.
  apply has_app in H. destruct H as (A & H). rewrite size_four in H. apply has_app in H. destruct H as (B & H). rewrite size_four in H. apply has_app in H. destruct H as (C & H). rewrite size_four in H.
  apply has_app in H. destruct H as (D & H). change (size [_; _]) with 2 in H. change ([oy_bind y * 16 + oy_type y; oy_other y]) with ([oy_bind y * 16 + oy_type y] ++ [oy_other y]) in D.
  apply has_app in D. destruct D as (D1 & D2). change (size [_]) with 1 in D2.
  unfold getSymbol. cbv zeta. rewrite (word_has _ _ _ _ A F1), (word_has _ _ _ _ B F2).
  replace (i * 16 + 4 + 4) with (i * 16 + 8) in C by lia. rewrite (word_has _ _ _ _ C F3).
  replace (i * 16 + 12) with (i * 16 + 4 + 4 + 4) by lia. rewrite (get_has _ _ _ D1). cbn [rbind].
  replace (i * 16 + 13) with (i * 16 + 4 + 4 + 4 + 1) by lia. rewrite (get_has _ _ _ D2). cbn [rbind].
  replace (i * 16 + 14) with (i * 16 + 4 + 4 + 4 + 2) by lia. rewrite (half_has _ _ _ _ H F7).
  replace ((oy_bind y * 16 + oy_type y) / 16) with (oy_bind y) by lia. replace ((oy_bind y * 16 + oy_type y) mod 16) with (oy_type y) by lia.
  unfold is_exported. cbn [sy_bind sy_shndx]. change STB_GLOBAL with 1. change STB_WEAK with 2. fold (is_public y). fold (is_undefined y). unfold symbol_of.
  destruct (is_public y || is_undefined y); [| reflexivity]. rewrite (c_string_read _ _ _ N Z0). reflexivity.
Qed.
Lemma symbols_init big d t : forall ys i, has d (Z.of_nat i * 16) (flat_map (sym_bytes big) ys) -> Forall fine_sym ys -> Forall (fun y => names (s_data t) (oy_pos y) (oy_name y)) ys ->
  init_symbols (List.length ys) big d (Some t) (Z.of_nat i) = ROk (map symbol_of ys).
Proof.
  induction ys as [| y ys IH]; intros i H F N; [reflexivity |]. cbn [flat_map] in H. apply has_app in H. destruct H as (H & T). rewrite sym_size in T.
  inversion F; inversion N; subst. cbn [List.length init_symbols map]. rewrite (symbol_read _ _ _ _ _ H) by assumption. cbn [rbind].
  replace (Z.of_nat i + 1) with (Z.of_nat (S i)) by lia. rewrite IH; [reflexivity | | assumption | assumption]. apply (has_pos _ _ _ _ T). lia.
Qed.
Lemma symbols_size big ys : size (flat_map (sym_bytes big) ys) = 16 * Z.of_nat (List.length ys).
Proof. induction ys as [| y ys IH]; [reflexivity |]. cbn [flat_map List.length]. rewrite size_app, sym_size, IH. lia. Qed.

Lemma is_sym_body s : fine_body s -> (sh_type (os_hdr s) =? SHT_SYMTAB) = match os_body s with Symbols _ => true | _ => false end.
Proof. unfold fine_body, SHT_REL, SHT_RELA, SHT_SYMTAB. destruct (os_body s); lia. Qed.
Lemma last_symtab_none : forall ss i acc, Forall fine_body ss -> (forall s ys, In s ss -> os_body s <> Symbols ys) -> last_symtab i ss acc = acc.
Proof.
  induction ss as [| s ss IH]; intros i acc F N; [reflexivity |]. inversion F; subst. cbn [last_symtab]. rewrite is_sym_body by assumption.
  destruct (os_body s) eqn:E; try (apply IH; [assumption | intros t zs I; apply N; right; exact I]). elim (N s ys (or_introl eq_refl) E).
Qed.
Lemma last_symtab_read : forall ss i acc, Forall fine_body ss -> ForallOrdPairs (fun s t => match os_body s, os_body t with Symbols _, Symbols _ => False | _, _ => True end) ss ->
  match last_symtab i ss acc with
  | Some j => (last_symtab i ss acc = acc /\ forall s ys, In s ss -> os_body s <> Symbols ys) \/ (exists t ys, (i <= j)%nat /\ nth_error ss (j - i) = Some t /\ os_body t = Symbols ys /\ object_symbols ss = map symbol_of ys)
  | None => acc = None /\ forall s ys, In s ss -> os_body s <> Symbols ys
  end.
Proof.
  induction ss as [| s ss IH]; intros i acc F O.
  - cbn [last_symtab]. destruct acc; [left; split; [reflexivity | intros ? ? []] | split; [reflexivity | intros ? ? []]].
  - inversion F; inversion O as [| ? ? O1 O2]; subst. cbn [last_symtab]. rewrite is_sym_body by assumption. destruct (os_body s) as [x | rs | ys] eqn:E.
    1, 2: specialize (IH (S i) acc ltac:(assumption) O2); destruct (last_symtab (S i) ss acc) as [j |]; [destruct IH as [(A & B) | (t & ys & A & B & C & D)] |].
    1, 4: left; split; [exact A | intros u zs [<- | I]; [congruence | apply B, I]].
    1, 3: right; exists t, ys; split; [lia |]; split; [replace (j - i)%nat with (S (j - S i)) by lia; exact B |]; split; [exact C |]; unfold object_symbols; cbn [flat_map]; rewrite E; exact D.
    1, 2: destruct IH as (A & B); split; [exact A | intros u zs [<- | I]; [congruence | apply B, I]].
    assert (N : forall u zs, In u ss -> os_body u <> Symbols zs).
    { intros u zs I Q. rewrite Forall_forall in O1. specialize (O1 u I). rewrite Q in O1. exact O1. }
    rewrite last_symtab_none by assumption. right. exists s, ys. rewrite Nat.sub_diag. split; [lia |]. split; [reflexivity |]. split; [exact E |]. unfold object_symbols. cbn [flat_map]. rewrite E.
    replace (flat_map _ ss) with (@nil esym); [apply app_nil_r |]. symmetry. clear - N. induction ss as [| u ss IH]; [reflexivity |]. cbn [flat_map]. rewrite IH by (intros v zs I; apply N; right; exact I).
    destruct (os_body u) eqn:Q; try reflexivity. elim (N u ys (or_introl eq_refl) Q).
Qed.
Lemma last_strtab_read k l : forall ss i acc, (forall j u, nth_error ss j = Some u -> sh_type (os_hdr u) = SHT_STRTAB -> Z.of_nat (i + j) = Z.of_nat l \/ Z.of_nat (i + j) = k) ->
  (exists u, (i <= l)%nat /\ nth_error ss (l - i) = Some u /\ sh_type (os_hdr u) = SHT_STRTAB) \/ acc = Some l ->
  (acc = Some l \/ acc = None \/ exists a, acc = Some a /\ Z.of_nat l <> k) ->
  last_strtab k i ss acc = Some l.
Proof.
  induction ss as [| s ss IH]; intros i acc A B C.
  - destruct B as [(u & _ & B & _) | B]; [destruct (l - i)%nat; discriminate B | exact B].
  - cbn [last_strtab].
    assert (A' : forall j u, nth_error ss j = Some u -> sh_type (os_hdr u) = SHT_STRTAB -> Z.of_nat (S i + j) = Z.of_nat l \/ Z.of_nat (S i + j) = k).
    { intros j u E T. replace (S i + j)%nat with (i + S j)%nat by lia. apply (A (S j) u E T). }
    destruct (Z.eqb_spec (sh_type (os_hdr s)) SHT_STRTAB) as [T | T].
    + assert (X := A 0%nat s eq_refl T). rewrite Nat.add_0_r in X.
      destruct (Nat.eq_dec i l) as [-> | D].
      * assert (E : (match acc with None => Some l | Some _ => if Z.of_nat l =? k then acc else Some l end) = Some l).
        { destruct acc as [a |]; [| reflexivity]. destruct (Z.eqb_spec (Z.of_nat l) k) as [Q | Q]; [| reflexivity]. destruct C as [C | [C | (b & C1 & C2)]]; [exact C | discriminate C | contradiction]. }
        rewrite E. apply IH; [exact A' | right; reflexivity | left; reflexivity].
      * destruct X as [X | X]; [lia |].
        assert (E : (match acc with None => Some i | Some _ => if Z.of_nat i =? k then acc else Some i end) = match acc with None => Some i | Some a => Some a end).
        { destruct acc; [| reflexivity]. destruct (Z.eqb_spec (Z.of_nat i) k); [reflexivity | contradiction]. }
        rewrite E. apply IH; [exact A' | |].
        -- destruct B as [(u & B1 & B2 & B3) | B]; [| right; rewrite B; reflexivity]. left. exists u. split; [lia |]. split; [| exact B3]. replace (l - i)%nat with (S (l - S i)) in B2 by lia. exact B2.
        -- destruct C as [-> | [-> | (a & -> & C)]]; [left; reflexivity | right; right; exists i; split; [reflexivity | lia] | right; right; exists a; split; [reflexivity | exact C]].
    + apply IH; [exact A' | | exact C]. destruct B as [(u & B1 & B2 & B3) | B]; [| right; exact B]. left. exists u.
      destruct (Nat.eq_dec i l) as [-> | D]; [rewrite Nat.sub_diag in B2; injection B2 as ->; contradiction |]. split; [lia |]. split; [| exact B3]. replace (l - i)%nat with (S (l - S i)) in B2 by lia. exact B2.
Qed.

(** ** The whole object *)

Lemma object_read m big d h ss : file_of big d h ss -> one_each ss -> one_table (e_shstrndx h) ss -> e_type h = 1 -> e_machine h = expectedMachine m ->
  init_file m big d = ROk (Some (mkFile big (object_sections big ss) (object_symbols ss), object_ctors ss)).
Proof.
  intros F O T Ty Ma. unfold init_file. rewrite (load_read _ _ _ _ F). cbn [rbind f_hdr f_segments f_symtab f_strtab]. rewrite Ty, Ma, !Z.eqb_refl. cbn [negb].
  destruct (fo_fine _ _ _ _ F) as (_ & B & Hs & Ws). rewrite B, Bool.eqb_reflx. cbn [negb]. rewrite loose_all.
  assert (Fi : Forall (fun s => exists pos, section_in big d pos s) ss).
  { apply Forall_forall. intros s I. apply In_nth_error in I. destruct I as (i & E). eexists. apply (fo_sections _ _ _ _ F i s E). }
  assert (Fb : Forall fine_body ss) by (eapply Forall_impl; [| exact Fi]; intros s (pos & I); apply (si_body _ _ _ _ I)).
  assert (La : Z.of_nat (List.length ss) < 65536).
  { rewrite Forall_forall in Hs. assert (N := Hs (e_shnum h) ltac:(cbn; tauto)). unfold is_half in N. rewrite (fo_count _ _ _ _ F) in N. lia. }
  assert (Se : init_sections big (map (named big) ss) (map (named big) ss) 0 = ROk (object_sections big ss)) by (apply (sections_init big d ss Fi O La ss 0%nat Fi); lia).
  rewrite Se. cbn [rbind].
  assert (Ct : init_ctors (map (named big) ss) 0 = object_ctors ss).
  { apply (ctors_init big ss 0%nat). eapply Forall_impl; [| exact Fi]. intros s (pos & I). apply (si_fine _ _ _ _ I). }
  rewrite Ct. destruct T as (T1 & T2).
  assert (Y := last_symtab_read ss 0%nat None Fb T1). destruct (last_symtab 0 ss None) as [j |] eqn:Ej.
  - destruct Y as [(Y & _) | (t & ys & _ & E & Bt & Sy)]; [discriminate Y |]. rewrite Nat.sub_0_r in E. unfold data_of at 1. cbn [f_sections]. rewrite nth_error_map, E. cbn [option_map named s_hdr s_data].
    assert (It : In t ss) by (eapply nth_error_In; exact E). destruct (fo_symbols _ _ _ _ F t ys It Bt) as (u & Eu & Tu & Nu).
    assert (I := fo_sections _ _ _ _ F j t E).
    assert (Bd := si_body _ _ _ _ I). unfold fine_body in Bd. rewrite Bt in Bd. destruct Bd as (Tt & Fs).
    assert (NB : ~ no_bits t) by (unfold no_bits, SHT_NULL, SHT_NOBITS; unfold SHT_SYMTAB in Tt; lia).
    destruct (si_data _ _ _ _ I NB) as (_ & St).
    assert (Lk : 0 <= sh_link (os_hdr t)).
    { assert (W := si_fine _ _ _ _ I). unfold fine_shdr in W. rewrite Forall_forall in W. apply (W (sh_link (os_hdr t))). cbn; tauto. }
    assert (L : last_strtab (e_shstrndx h) 0 ss None = Some (Z.to_nat (sh_link (os_hdr t)))).
    { apply last_strtab_read.
      - intros i v Ev Tv. rewrite Z2Nat.id by exact Lk. apply (T2 t ys i v It Bt Ev Tv).
      - left. exists u. rewrite Nat.sub_0_r. split; [lia |]. split; assumption.
      - right. left. reflexivity. }
    rewrite L. unfold data_of. cbn [f_sections]. rewrite nth_error_map, Eu. cbn [option_map]. rewrite St. unfold content. rewrite Bt. rewrite symbols_size.
    replace (16 * Z.of_nat (List.length ys) / 16) with (Z.of_nat (List.length ys)) by (rewrite Z.mul_comm, Z.div_mul; lia). rewrite Nat2Z.id.
    assert (Q := symbols_init big (flat_map (sym_bytes big) ys) (named big u) ys 0%nat (has_self _) Fs Nu). cbn [Z.of_nat] in Q. rewrite Q. cbn [rbind]. rewrite Sy. reflexivity.
  - destruct Y as (_ & Y). cbn [data_of rbind]. repeat f_equal. symmetry. unfold object_symbols. clear - Y. induction ss as [| s ss IH]; [reflexivity |]. cbn [flat_map].
    rewrite IH by (intros u zs I; apply Y; right; exact I). destruct (os_body s) eqn:Q; try reflexivity. elim (Y s ys (or_introl eq_refl) Q).
Qed.
(** Other files are refused. *)
Lemma object_refused m big d big' h ss : file_of big' d h ss -> (e_type h <> 1 \/ e_machine h <> expectedMachine m \/ big' <> big) -> init_file m big d = ROk None.
Proof.
  intros F C. unfold init_file. rewrite (load_read _ _ _ _ F). cbn [rbind f_hdr]. destruct (Z.eqb_spec (e_type h) 1); [| reflexivity]. destruct (Z.eqb_spec (e_machine h) (expectedMachine m)); [| reflexivity].
  destruct (fo_fine _ _ _ _ F) as (_ & -> & _). cbn [negb]. destruct C as [C | [C | C]]; try contradiction. destruct big', big; try contradiction; reflexivity.
Qed.
