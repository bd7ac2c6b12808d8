(** Loading of ELF programs. *)

Require Import ZArith Lia Bool List Permutation.
Require Import ZifyBool.
Require Import Verif.Ints Verif.IntsLemmas Verif.Res Verif.BytesSpec Verif.ElfModel Verif.ElfProofs Verif.PsxModel Verif.ElfReadModel Verif.ElfReadSpec Verif.ElfReadProofs.
Require Import Verif.ElfSaveModel Verif.ElfSaveSpec Verif.ElfSaveProofs Verif.ElfSaveEnd.
Import ListNotations.
Local Open Scope Z_scope.

Lemma fine_segment g : fine_phdr g -> 0 <= p_offset g /\ 0 <= p_filesz g.
Proof.
  intros F. unfold fine_phdr in F. rewrite Forall_forall in F. assert (A : is_word (p_offset g)) by (apply F; unfold phdr_fields; cbn [In]; tauto). assert (B : is_word (p_filesz g)) by (apply F; unfold phdr_fields; cbn [In]; tauto).
  unfold is_word in *. lia.
Qed.

Lemma segments_read big d phoff es : forall gs i,
  (forall k g x, nth_error gs k = Some (g, x) -> has d (phoff + (i + Z.of_nat k) * es) (phdr_bytes big g) /\ fine_phdr g /\ has d (p_offset g) x /\ p_filesz g = size x) ->
  loadSegments big d phoff es (List.length gs) i = ROk (map (fun g => mkSegment (fst g) (snd g) [] None) gs).
Proof.
  induction gs as [| [g x] gs IH]; intros i H; [reflexivity |]. cbn [List.length loadSegments map fst snd]. destruct (H O g x eq_refl) as (A & B & C & D).
  rewrite Z.add_0_r in A. rewrite (phdr_read big d _ g A B). cbv zeta. rewrite D, (mid_has d (p_offset g) x C). cbn [rbind]. rewrite IH; [reflexivity |].
  intros k g' x' E. replace (i + 1 + Z.of_nat k) with (i + Z.of_nat (S k)) by lia. exact (H (S k) g' x' E).
Qed.

(** ** Owners *)

Definition proper (g : phdr) : Prop := 0 <= p_offset g /\ 0 <= p_filesz g /\ p_offset g + p_filesz g < 2147483648.
Definition proper_section (s : shdr) : Prop := 0 <= extent s /\ 0 <= sh_offset s /\ sh_offset s + extent s < 2147483648.
Lemma part_of g s r : proper (g_hdr g) -> proper_section s -> isSectionPartOf g s = ROk r -> (r = Inside <-> holds (g_hdr g) s = true).
Proof.
  intros (G1 & G2 & G3) (S1 & S2 & S3). unfold isSectionPartOf. cbv zeta. rewrite (s32_small (sh_offset s)), (s32_small (p_offset (g_hdr g))), (s32_small (p_offset (g_hdr g) + p_filesz (g_hdr g))) by lia.
  assert (L : (if sh_type s =? SHT_NOBITS then 0 else s32 (sh_size s)) = extent s) by (unfold extent in *; destruct (sh_type s =? SHT_NOBITS); [reflexivity | apply s32_small; lia]). rewrite L.
  unfold add_int. rewrite s32_small, Z.eqb_refl by lia. cbn [rbind]. unfold holds. intros E.
  destruct (Z.ltb_spec (sh_offset s) (p_offset (g_hdr g))); cbn [orb] in E; [apply ROk_inj in E; subst r; split; [discriminate | lia] |].
  destruct (Z.ltb_spec (p_offset (g_hdr g) + p_filesz (g_hdr g)) (sh_offset s)); [apply ROk_inj in E; subst r; split; [discriminate | lia] |].
  destruct (Z.eqb_spec (sh_offset s) (p_offset (g_hdr g) + p_filesz (g_hdr g))).
  - apply ROk_inj in E. subst r. destruct (Z.eqb_spec (extent s) 0); split; try reflexivity; try discriminate; lia.
  - destruct (Z.ltb_spec (p_offset (g_hdr g) + p_filesz (g_hdr g)) (sh_offset s + extent s)); apply ROk_inj in E; subst r; split; try reflexivity; try discriminate; lia.
Qed.
Lemma owner_read s : proper_section s -> forall l k r, Forall (fun g => proper (g_hdr g)) l -> find_owner l s k = ROk r -> fst r = option_map (plus k) (owner (map g_hdr l) s).
Proof.
  intros Ps. induction l as [| g l IH]; intros k r F E; [apply ROk_inj in E; subst r; reflexivity |]. cbn [find_owner] in E. inversion F as [| ? ? F1 F2]; subst. apply do_ok in E. destruct E as (x & X & E).
  assert (Q := part_of g s x F1 Ps X). cbn [map owner]. destruct x.
  - apply ROk_inj in E. subst r. rewrite (proj1 Q eq_refl). cbn [fst option_map]. f_equal. lia.
  - destruct (holds (g_hdr g) s); [discriminate (proj2 Q eq_refl) |]. rewrite (IH _ _ F2 E). destruct (owner (map g_hdr l) s); cbn [option_map]; [f_equal; lia | reflexivity].
  - destruct (holds (g_hdr g) s); [discriminate (proj2 Q eq_refl) |]. apply do_ok in E. destruct E as (r' & R & E). apply ROk_inj in E. subst r. cbn [fst]. rewrite (IH _ _ F2 R).
    destruct (owner (map g_hdr l) s); cbn [option_map]; [f_equal; lia | reflexivity].
Qed.

(** ** The loop over the sections *)

Section Load.
Variables (d : list Z) (h : ehdr) (gs : list (phdr * list Z)).
Hypothesis Proper : forall k g x, nth_error gs k = Some (g, x) -> proper g.
Notation own s := (owner (map fst gs) s).
Definition elf_of (l : lstate) : elf := mkElf h (l_segments l) (l_sections l) (l_loose l) None None true.

Lemma hdrs ss f : rep d h gs ss f -> map g_hdr (f_segments f) = map fst gs.
Proof.
  intros R. apply nth_same. intros j. rewrite !nth_error_map. destruct (nth_error gs j) as [[g x] |] eqn:G.
  - destruct (r_segments _ _ _ _ _ R j g x G) as (seg & A & B & _). rewrite A. cbn [option_map fst]. congruence.
  - apply nth_error_None in G. rewrite <- (r_count _ _ _ _ _ R) in G. apply nth_error_None in G. rewrite G. reflexivity.
Qed.
Lemma nth_last {A} (l : list A) x i y : nth_error (l ++ [x]) i = Some y -> nth_error l i = Some y \/ i = List.length l /\ y = x.
Proof.
  intros E. destruct (Nat.ltb_spec i (List.length l)) as [L | L]; [rewrite nth_error_app1 in E by exact L; left; exact E |]. rewrite nth_error_app2 in E by exact L. right.
  destruct (i - List.length l)%nat as [| m] eqn:M; [injection E as <-; split; [lia | reflexivity] | destruct m; discriminate E].
Qed.
Lemma nth_prefix {A} (l : list A) x i y : nth_error l i = Some y -> nth_error (l ++ [x]) i = Some y.
Proof. intros E. rewrite nth_error_app1; [exact E | apply nth_error_Some; congruence]. Qed.
Lemma nth_length {A} (l : list A) x : nth_error (l ++ [x]) (List.length l) = Some x.
Proof. rewrite nth_error_app2, Nat.sub_diag by lia. reflexivity. Qed.
Lemma nth_lt {A} (l : list A) i y : nth_error l i = Some y -> (i < List.length l)%nat.
Proof. intros E. apply nth_error_Some. congruence. Qed.
Lemma nodup_last (l : list nat) n : NoDup l -> ~ In n l -> NoDup (l ++ [n]).
Proof. intros N I. apply Permutation_NoDup with (n :: l); [apply Permutation_cons_append | constructor; assumption]. Qed.

Lemma section_step shstrndx ss s l l' : proper_section s -> (has_bits s = true -> sh_offset s + sh_size s <= size d) -> rep d h gs ss (elf_of l) ->
  load_section d shstrndx s l = ROk l' -> rep d h gs (ss ++ [s]) (elf_of l').
Proof.
  intros Ps Fit R E. unfold load_section in E. cbv zeta in E. apply do_ok in E. destruct E as (o & O & E). apply owner_read in O; [| exact Ps |].
  2: { apply Forall_forall. intros g G. assert (X : In (g_hdr g) (map g_hdr (l_segments l))) by (apply in_map; exact G). change (l_segments l) with (f_segments (elf_of l)) in X. rewrite (hdrs _ _ R) in X.
       apply in_map_iff in X. destruct X as ([g0 x] & <- & X). apply In_nth_error in X. destruct X as (k & X). exact (Proper k g0 x X). }
  change (l_segments l) with (f_segments (elf_of l)) in O. rewrite (hdrs _ _ R) in O. change (option_map (plus 0)) with (option_map (fun k : nat => k)) in O.
  assert (On : fst o = own s) by (rewrite O; destruct (own s); reflexivity). clear O. rewrite On in E.
  assert (Ln := r_scount _ _ _ _ _ R). cbn [elf_of f_sections] in Ln. rewrite Ln in E.
  assert (Fr : forall k seg, nth_error (l_segments l) k = Some seg -> ~ In (List.length ss) (g_sections seg)).
  { intros k seg G I. destruct (nth_both _ _ _ _ (r_count _ _ _ _ _ R) G) as ([g x] & G'). destruct (r_segments _ _ _ _ _ R k g x G') as (seg' & A & _ & _ & _ & M & _).
    change (f_segments (elf_of l)) with (l_segments l) in A. rewrite G in A. injection A as <-. apply M in I. destruct I as (t & T & _). apply nth_lt in T. lia. }
  assert (Fl : ~ In (List.length ss) (l_loose l)).
  { intros I. change (l_loose l) with (f_loose (elf_of l)) in I. apply (r_loose _ _ _ _ _ R) in I. destruct I as (t & T & _). apply nth_lt in T. lia. }
  destruct (own s) as [k |] eqn:Os.
  - apply ROk_inj in E. subst l'. destruct (owner_holds _ _ _ Os) as (g & G & Hh). rewrite nth_error_map in G. destruct (nth_error gs k) as [[g0 x] |] eqn:Gk; [| discriminate G]. injection G as ->. cbn [fst] in Hh.
    destruct (r_segments _ _ _ _ _ R k g x Gk) as (seg & A & B & _). change (f_segments (elf_of l)) with (l_segments l) in A. rewrite A, B.
    assert (Pg := Proper k g x Gk). assert (U : u32 (sh_offset s - p_offset g) = sh_offset s - p_offset g) by (apply u32_small; destruct Pg as (? & ? & ?), Ps as (? & ? & ?); unfold holds in Hh; lia). rewrite U.
    constructor; cbn [elf_of f_hdr f_segments f_sections f_loose l_segments l_sections l_loose].
    + reflexivity.
    + rewrite change_nth_length. exact (r_count _ _ _ _ _ R).
    + intros j g1 x1 G1. destruct (r_segments _ _ _ _ _ R j g1 x1 G1) as (seg1 & A1 & B1 & C1 & D1 & M1 & P1). change (f_segments (elf_of l)) with (l_segments l) in A1.
      rewrite change_nth_at, A1. destruct (Nat.eqb_spec j k) as [-> | Nk]; cbn [option_map].
      * exists (addSection (List.length ss) s seg1). split; [reflexivity |]. unfold addSection. cbn [g_hdr g_data g_sections g_paddr]. split; [exact B1 |]. split; [exact C1 |].
        split; [apply nodup_last; [exact D1 | exact (Fr _ _ A1)] |]. split.
        -- intros i. rewrite in_app_iff. split.
           ++ intros [I | [<- | []]]; [apply M1 in I; destruct I as (t & T1 & T2); exists t; split; [apply nth_prefix; exact T1 | exact T2] |]. exists s. split; [apply nth_length | exact Os].
           ++ intros (t & T1 & T2). apply nth_last in T1. destruct T1 as [T1 | (-> & ->)]; [left; apply M1; exists t; split; assumption | right; left; reflexivity].
        -- intros i Pi. destruct (negb (p_paddr (g_hdr seg1) =? 0) && (sh_offset s =? p_paddr (g_hdr seg1))) eqn:Q.
           ++ injection Pi as <-. exists s. split; [apply nth_length |]. split; [exact Os |]. rewrite B1 in Q. lia.
           ++ destruct (P1 i Pi) as (t & T1 & T2). exists t. split; [apply nth_prefix; exact T1 | exact T2].
      * exists seg1. split; [reflexivity |]. split; [exact B1 |]. split; [exact C1 |]. split; [exact D1 |]. split.
        -- intros i. rewrite M1. split; intros (t & T1 & T2).
           ++ exists t. split; [apply nth_prefix; exact T1 | exact T2].
           ++ apply nth_last in T1. destruct T1 as [T1 | (-> & ->)]; [exists t; split; assumption | congruence].
        -- intros i Pi. destruct (P1 i Pi) as (t & T1 & T2). exists t. split; [apply nth_prefix; exact T1 | exact T2].
    + rewrite !app_length, Ln. reflexivity.
    + intros i t T. apply nth_last in T. destruct T as [T | (-> & ->)].
      * destruct (r_sections _ _ _ _ _ R i t T) as (sec & A1 & B1). change (f_sections (elf_of l)) with (l_sections l) in A1. exists sec. split; [apply nth_prefix; exact A1 | exact B1].
      * rewrite <- Ln. eexists. split; [apply nth_length |]. cbn [s_hdr s_data]. split; [unfold rel; rewrite Os, Gk; reflexivity | intros Q; congruence].
    + exact (r_nodup _ _ _ _ _ R).
    + intros i. change (l_loose l) with (f_loose (elf_of l)). rewrite (r_loose _ _ _ _ _ R i). split; intros (t & T1 & T2).
      * exists t. split; [apply nth_prefix; exact T1 | exact T2].
      * apply nth_last in T1. destruct T1 as [T1 | (-> & ->)]; [exists t; split; assumption | congruence].
  - apply do_ok in E. destruct E as (data & Dt & E). apply ROk_inj in E. subst l'.
    assert (Dv : data = if has_bits s then bytes_at d (sh_offset s) (sh_size s) else []).
    { assert (Hb : has_bits s = negb ((sh_type s =? SHT_NOBITS) || (sh_type s =? SHT_NULL))) by (unfold has_bits; rewrite negb_orb; apply andb_comm). rewrite Hb in *.
      destruct ((sh_type s =? SHT_NOBITS) || (sh_type s =? SHT_NULL)) eqn:Q; cbn [negb] in *; [apply ROk_inj in Dt; subst data; reflexivity |]. specialize (Fit eq_refl).
      assert (Es : extent s = sh_size s) by (unfold extent; destruct (sh_type s =? SHT_NOBITS); [discriminate Q | reflexivity]). destruct Ps as (P1 & P2 & P3). rewrite Es in *. unfold mid in Dt. cbv zeta in Dt.
      destruct (Z.geb_spec (sh_offset s) (size d)) as [Ge | Lt].
      - apply ROk_inj in Dt. subst data. unfold bytes_at. replace (sh_size s) with 0 by lia. reflexivity.
      - destruct (Z.ltb_spec (sh_size s) 0); [lia |]. destruct (Z.ltb_spec (size d) (sh_offset s + sh_size s)); [lia |]. apply ROk_inj in Dt. subst data. reflexivity. }
    constructor; cbn [elf_of f_hdr f_segments f_sections f_loose l_segments l_sections l_loose].
    + reflexivity.
    + exact (r_count _ _ _ _ _ R).
    + intros j g1 x1 G1. destruct (r_segments _ _ _ _ _ R j g1 x1 G1) as (seg1 & A1 & B1 & C1 & D1 & M1 & P1). change (f_segments (elf_of l)) with (l_segments l) in A1.
      exists seg1. split; [exact A1 |]. split; [exact B1 |]. split; [exact C1 |]. split; [exact D1 |]. split.
      * intros i. rewrite M1. split; intros (t & T1 & T2).
        -- exists t. split; [apply nth_prefix; exact T1 | exact T2].
        -- apply nth_last in T1. destruct T1 as [T1 | (-> & ->)]; [exists t; split; assumption | congruence].
      * intros i Pi. destruct (P1 i Pi) as (t & T1 & T2). exists t. split; [apply nth_prefix; exact T1 | exact T2].
    + rewrite !app_length, Ln. reflexivity.
    + intros i t T. apply nth_last in T. destruct T as [T | (-> & ->)].
      * destruct (r_sections _ _ _ _ _ R i t T) as (sec & A1 & B1). change (f_sections (elf_of l)) with (l_sections l) in A1. exists sec. split; [apply nth_prefix; exact A1 | exact B1].
      * rewrite <- Ln. eexists. split; [apply nth_length |]. cbn [s_hdr s_data]. split; [rewrite rel_none by exact Os; reflexivity | intros _; exact Dv].
    + apply nodup_last; [exact (r_nodup _ _ _ _ _ R) | exact Fl].
    + intros i. rewrite in_app_iff. change (l_loose l) with (f_loose (elf_of l)). split.
      * intros [I | [<- | []]]; [apply (r_loose _ _ _ _ _ R) in I; destruct I as (t & T1 & T2); exists t; split; [apply nth_prefix; exact T1 | exact T2] |]. exists s. split; [apply nth_length | exact Os].
      * intros (t & T1 & T2). apply nth_last in T1. destruct T1 as [T1 | (-> & ->)]; [left; apply (r_loose _ _ _ _ _ R); exists t; split; assumption | right; left; reflexivity].
Qed.
Lemma sections_loop big shstrndx : forall rest ss l l', size d < 2147483648 -> 0 <= e_shoff h -> 0 <= e_shentsize h -> 
  (forall i s, nth_error rest i = Some s -> has d (e_shoff h + (Z.of_nat (List.length ss) + Z.of_nat i) * e_shentsize h) (shdr_bytes big s) /\ fine_shdr s /\ sh_offset s + extent s < 2147483648 /\
     (has_bits s = true -> sh_offset s + sh_size s <= size d)) ->
  rep d h gs ss (elf_of l) -> load_sections big d (e_shoff h) (e_shentsize h) shstrndx (List.length rest) (Z.of_nat (List.length ss)) l = ROk l' -> rep d h gs (ss ++ rest) (elf_of l').
Proof.
  induction rest as [| s rest IH]; intros ss l l' Sd So Se H R E; cbn [List.length load_sections] in E; [apply ROk_inj in E; subst l'; rewrite app_nil_r; exact R |].
  destruct (H O s eq_refl) as (A & B & C & D). rewrite Z.add_0_r in A. apply do_ok in E. destruct E as (pos & Ep & E).
  assert (Hs : e_shoff h + Z.of_nat (List.length ss) * e_shentsize h + size (shdr_bytes big s) <= size d) by (apply has_size; [exact A |]; intros Q; assert (X := shdr_size big s); rewrite Q in X; discriminate X).
  rewrite shdr_size in Hs. assert (0 <= Z.of_nat (List.length ss) * e_shentsize h) by (apply Z.mul_nonneg_nonneg; lia).
  unfold header_pos in Ep. destruct (Z.ltb_spec (Z.of_nat (List.length ss) * e_shentsize h) 2147483648); [| lia]. rewrite u32_small in Ep by lia. apply ROk_inj in Ep. subst pos.
  rewrite (shdr_read big d _ s A B) in E. apply do_ok in E. destruct E as (l1 & E1 & E).
  assert (R1 : rep d h gs (ss ++ [s]) (elf_of l1)).
  { eapply section_step; [| exact D | exact R | exact E1]. destruct (fine_extent s B) as (X & Y & _). split; [exact X |]. split; [exact Y | exact C]. }
  assert (L1 : Z.of_nat (List.length ss) + 1 = Z.of_nat (List.length (ss ++ [s]))) by (rewrite app_length; cbn [List.length]; lia). rewrite L1 in E.
  replace (ss ++ s :: rest) with ((ss ++ [s]) ++ rest) by (rewrite <- app_assoc; reflexivity). apply (IH (ss ++ [s]) l1 l' Sd So Se); [| exact R1 | exact E].
  intros i t T. destruct (H (S i) t T) as (A2 & B2). split; [| exact B2]. rewrite <- L1. replace (Z.of_nat (List.length ss) + 1 + Z.of_nat i) with (Z.of_nat (List.length ss) + Z.of_nat (S i)) by lia. exact A2.
Qed.
End Load.

Definition same_section (s t : section) : Prop := s_hdr t = s_hdr s /\ s_data t = s_data s.
Lemma same_refl ss : Forall2 same_section ss ss.
Proof. induction ss; constructor; [split; reflexivity | assumption]. Qed.
Lemma set_names_keep d table : forall ss ss', set_names d table ss = ROk ss' -> Forall2 same_section ss ss'.
Proof.
  induction ss as [| s ss IH]; intros ss' E; cbn [set_names] in E; [apply ROk_inj in E; subst ss'; constructor |]. apply do_ok in E. destruct E as (t & T & E). apply do_ok in E. destruct E as (r & Q & E). apply ROk_inj in E. subst ss'.
  constructor; [| apply IH; exact Q]. destruct (sh_type (s_hdr s) =? SHT_NULL); [apply ROk_inj in T; subst t; split; reflexivity |]. apply do_ok in T. destruct T as (n & _ & T). apply ROk_inj in T. subst t. split; reflexivity.
Qed.
Lemma names_keep d k ss ss' : loadSectionNames d k ss = ROk ss' -> Forall2 same_section ss ss'.
Proof.
  unfold loadSectionNames. destruct (k =? 0); [intros E; apply ROk_inj in E; subst ss'; apply same_refl |]. destruct (nth_error ss (Z.to_nat k)) as [t |]; [| discriminate].
  destruct (size d <? sh_offset (s_hdr t) + sh_size (s_hdr t)); intros E; apply do_ok in E; destruct E as (p & _ & E); destruct p; try discriminate E.
  - apply ROk_inj in E. subst ss'. apply same_refl.
  - exact (set_names_keep _ _ _ _ E).
  - apply ROk_inj in E. subst ss'. apply same_refl.
Qed.
Lemma forall2_len {A B} (Q : A -> B -> Prop) l l' : Forall2 Q l l' -> List.length l = List.length l'.
Proof. induction 1; cbn [List.length]; congruence. Qed.
Lemma forall2_at {A B} (Q : A -> B -> Prop) l l' : Forall2 Q l l' -> forall i x, nth_error l i = Some x -> exists y, nth_error l' i = Some y /\ Q x y.
Proof. induction 1 as [| a b l l' H F IH]; intros [| i] x E; try discriminate E; [injection E as <-; exists b; split; [reflexivity | exact H] | exact (IH i x E)]. Qed.

Lemma rep_same d h gs ss f f' : rep d h gs ss f -> f_hdr f' = f_hdr f -> Forall2 same_section (f_sections f) (f_sections f') -> Permutation (f_loose f) (f_loose f') -> Forall2 reordered_segment (f_segments f) (f_segments f') ->
  rep d h gs ss f'.
Proof.
  intros R E1 E2 E3 E4. constructor.
  - rewrite E1. exact (r_hdr _ _ _ _ _ R).
  - rewrite <- (forall2_len _ _ _ E4). exact (r_count _ _ _ _ _ R).
  - intros k g x G. destruct (r_segments _ _ _ _ _ R k g x G) as (seg & A & B & C & D & M & Pa). destruct (forall2_at _ _ _ E4 k seg A) as (seg' & A' & (Q1 & Q2 & Q3 & Q4)).
    exists seg'. split; [exact A' |]. split; [congruence |]. split; [congruence |]. split; [eapply Permutation_NoDup; [exact Q4 | exact D] |]. split; [| rewrite Q3; exact Pa].
    intros i. rewrite <- M. split; apply Permutation_in; [apply Permutation_sym |]; exact Q4.
  - rewrite <- (forall2_len _ _ _ E2). exact (r_scount _ _ _ _ _ R).
  - intros i s S. destruct (r_sections _ _ _ _ _ R i s S) as (sec & A & B & C). destruct (forall2_at _ _ _ E2 i sec A) as (sec' & A' & (Q1 & Q2)). exists sec'. split; [exact A' |]. rewrite Q1, Q2. split; [exact B | exact C].
  - eapply Permutation_NoDup; [exact E3 | exact (r_nodup _ _ _ _ _ R)].
  - intros i. rewrite <- (r_loose _ _ _ _ _ R i). split; apply Permutation_in; [apply Permutation_sym |]; exact E3.
Qed.

Lemma loaded_program big d h gs ss f f' : program big d h gs ss -> load_elf d = ROk f -> reordered f f' -> rep d h gs ss f'.
Proof.
  intros P E (O1 & O2 & O3 & O4). eapply rep_same with (f := f); [| exact O1 | rewrite O2; apply same_refl | exact O3 | exact O4]. clear f' O1 O2 O3 O4.
  unfold load_elf in E. destruct (pg_fine _ _ _ _ _ P) as (I16 & Big & Fh & Fw). rewrite (ehdr_read big d h (pg_header _ _ _ _ _ P) (pg_fine _ _ _ _ _ P)) in E. cbn [rbind] in E. cbv zeta in E. rewrite Big in E.
  rewrite (pg_phnum _ _ _ _ _ P), (pg_shnum _ _ _ _ _ P), !Nat2Z.id in E.
  rewrite (segments_read big d (e_phoff h) (e_phentsize h) gs 0) in E.
  2: { intros k g x G. destruct (pg_segments _ _ _ _ _ P k g x G) as (A & B & C & D & _). rewrite Z.add_0_l. split; [exact A |]. split; [exact B |]. split; [exact C | exact D]. }
  cbn [rbind] in E. apply do_ok in E. destruct E as (l & El & E). apply do_ok in E. destruct E as (ns & En & E). apply ROk_inj in E. subst f.
  eapply rep_same with (f := elf_of h l); cbn [f_hdr f_sections f_segments f_loose elf_of]; [| reflexivity | exact (names_keep _ _ _ _ En) | apply Permutation_refl |].
  2: { clear. induction (l_segments l); constructor; [repeat split; apply Permutation_refl | assumption]. }
  rewrite Forall_forall in Fh, Fw. assert (So : is_word (e_shoff h)) by (apply Fw; cbn [In]; tauto). assert (Se : is_half (e_shentsize h)) by (apply Fh; cbn [In]; tauto). unfold is_word, is_half in *.
  refine (sections_loop d h gs _ big (e_shstrndx h) ss [] _ l (pg_size _ _ _ _ _ P) (proj1 So) (proj1 Se) _ _ El).
  - intros k g x G. destruct (pg_segments _ _ _ _ _ P k g x G) as (_ & F & _ & Fz & Lim). destruct (fine_segment g F) as (X & Y). assert (Q := pg_size _ _ _ _ _ P). unfold proper. lia.
  - intros i s S. exact (pg_sections _ _ _ _ _ P i s S).
  - constructor; cbn [elf_of f_hdr f_segments f_sections f_loose l_segments l_sections l_loose].
    + reflexivity.
    + apply map_length.
    + intros k g x G. eexists. rewrite nth_error_map, G. split; [reflexivity |]. cbn [g_hdr g_data g_sections g_paddr fst snd]. split; [reflexivity |]. split; [reflexivity |]. split; [constructor |]. split; [| discriminate].
      intros i. split; [intros [] |]. intros (s & S & _). destruct i; discriminate S.
    + reflexivity.
    + intros [| i] s S; discriminate S.
    + constructor.
    + intros i. split; [intros [] |]. intros (s & S & _). destruct i; discriminate S.
Qed.
