(** Positions in ELF programs, and writing. *)

Require Import ZArith Lia Bool List Permutation.
Require Import ZifyBool.
Require Import Verif.Ints Verif.IntsLemmas Verif.Res Verif.BytesSpec Verif.ElfModel Verif.ElfProofs Verif.PsxModel Verif.ElfReadModel Verif.ElfReadSpec Verif.ElfReadProofs.
Require Import Verif.ElfSaveModel Verif.ElfSaveSpec Verif.ElfSaveProofs Verif.ElfSaveEnd Verif.ElfSaveLoad.
Import ListNotations.
Local Open Scope Z_scope.

Lemma find_in_some f start a : forall l k j o, find_in f start a l k = Some (j, o) ->
  exists n i s, j = (k + n)%nat /\ nth_error l n = Some i /\ nth_error (f_sections f) i = Some s /\ o = a - (start + sh_offset (s_hdr s)) /\ start + sh_offset (s_hdr s) <= a < start + sh_offset (s_hdr s) + sh_size (s_hdr s).
Proof.
  induction l as [| i l IH]; intros k j o E; [discriminate E |]. cbn [find_in] in E. destruct (nth_error (f_sections f) i) as [s |] eqn:Si; [| discriminate E]. cbv zeta in E.
  destruct ((start + sh_offset (s_hdr s) <=? a) && (a <? start + sh_offset (s_hdr s) + sh_size (s_hdr s))) eqn:Q.
  - injection E as <- <-. exists O, i, s. split; [lia |]. split; [reflexivity |]. split; [exact Si |]. split; [reflexivity | lia].
  - destruct (IH _ _ _ E) as (n & i' & s' & J & A). exists (S n), i', s'. split; [lia | exact A].
Qed.
Lemma find_in_none f start a : forall l k, (forall i, In i l -> exists s, nth_error (f_sections f) i = Some s) -> find_in f start a l k = None ->
  forall i s, In i l -> nth_error (f_sections f) i = Some s -> ~ (start + sh_offset (s_hdr s) <= a < start + sh_offset (s_hdr s) + sh_size (s_hdr s)).
Proof.
  induction l as [| j l IH]; intros k X E i s I Si; [destruct I |]. cbn [find_in] in E. destruct (X j (or_introl eq_refl)) as (t & T). rewrite T in E. cbv zeta in E.
  destruct ((start + sh_offset (s_hdr t) <=? a) && (a <? start + sh_offset (s_hdr t) + sh_size (s_hdr t))) eqn:Q; [discriminate E |]. destruct I as [-> | I].
  - rewrite T in Si. injection Si as <-. lia.
  - apply (IH (S k)) with (i := i); [intros i' I'; apply X; right; exact I' | exact E | exact I | exact Si].
Qed.
Lemma find_segment_some f start a : forall gs k r, find_segment f start a gs k = Some r ->
  exists n g, nth_error gs n = Some g /\ start (g_hdr g) <= a < start (g_hdr g) + p_filesz (g_hdr g) /\
    (forall j g', (j < n)%nat -> nth_error gs j = Some g' -> ~ (start (g_hdr g') <= a < start (g_hdr g') + p_filesz (g_hdr g'))) /\
    r = match find_in f (start (g_hdr g)) a (g_sections g) 0 with Some (l, o) => Some ((k + n)%nat, l, o) | None => None end.
Proof.
  induction gs as [| g gs IH]; intros k r E; [discriminate E |]. cbn [find_segment] in E. cbv zeta in E. destruct ((start (g_hdr g) <=? a) && (a <? start (g_hdr g) + p_filesz (g_hdr g))) eqn:Q.
  - injection E as <-. exists O, g. split; [reflexivity |]. split; [lia |]. split; [intros j g' J; lia |]. rewrite Nat.add_0_r. reflexivity.
  - destruct (IH _ _ E) as (n & g1 & A & B & C & D). exists (S n), g1. split; [exact A |]. split; [exact B |]. split; [| rewrite D; replace (S k + n)%nat with (k + S n)%nat by lia; reflexivity].
    intros [| j] g' J G; [injection G as <-; lia | apply (C j g'); [lia | exact G]].
Qed.
Lemma find_segment_none f start a : forall gs k, find_segment f start a gs k = None -> forall j g, nth_error gs j = Some g -> ~ (start (g_hdr g) <= a < start (g_hdr g) + p_filesz (g_hdr g)).
Proof.
  induction gs as [| g gs IH]; intros k E j g' G; [destruct j; discriminate G |]. cbn [find_segment] in E. cbv zeta in E. destruct ((start (g_hdr g) <=? a) && (a <? start (g_hdr g) + p_filesz (g_hdr g))) eqn:Q; [discriminate E |].
  destruct j as [| j]; [injection G as <-; lia | exact (IH _ E j g' G)].
Qed.

Section Positions.
Variables (d : list Z) (h : ehdr) (ss : list shdr).

(** The position of a program is an address in a segment. *)
Definition at_address (gs : list (phdr * list Z)) (m : program_file) (a : Z) (k : nat) : Prop :=
  pf_segment m = Some k /\ exists g x seg l sec, nth_error gs k = Some (g, x) /\ nth_error (f_segments (pf_elf m)) k = Some seg /\ pf_section m = Some l /\ section_of (pf_elf m) seg l = Some sec /\
    0 <= sh_offset (s_hdr sec) /\ p_vaddr g + sh_offset (s_hdr sec) <= a /\ pf_offset m = a - p_vaddr g - sh_offset (s_hdr sec).

Lemma rel_offset gs s k g x : owner (map fst gs) s = Some k -> nth_error gs k = Some (g, x) -> sh_offset (rel gs s) = sh_offset s - p_offset g /\ sh_size (rel gs s) = sh_size s.
Proof. intros O G. unfold rel. rewrite O, G. split; reflexivity. Qed.
Lemma owner_below (gs : list (phdr * list Z)) s k g x : owner (map fst gs) s = Some k -> nth_error gs k = Some (g, x) -> p_offset g <= sh_offset s.
Proof. intros O G. destruct (owner_holds _ _ _ O) as (g' & G' & X). rewrite nth_error_map, G in G'. injection G' as <-. cbn [fst] in X. unfold holds in X. lia. Qed.

Lemma seek_some gs m a k l o : rep d h gs ss (pf_elf m) -> find_segment (pf_elf m) p_vaddr a (f_segments (pf_elf m)) 0 = Some (Some (k, l, o)) ->
  mapped gs ss a k /\ at_address gs (mkProgram (pf_elf m) (Some k) (Some l) o) a k.
Proof.
  intros R E. destruct (find_segment_some _ _ _ _ _ _ E) as (n & seg & A & B & C & D). destruct (find_in (pf_elf m) (p_vaddr (g_hdr seg)) a (g_sections seg) 0) as [[l' o'] |] eqn:F; [| discriminate D]. injection D as -> -> ->.
  destruct (find_in_some _ _ _ _ _ _ _ F) as (q & i & sec & -> & L & Si & Ho & Rg). destruct (nth_both _ _ _ _ (r_count _ _ _ _ _ R) A) as ([g x] & G). cbn [plus] in *.
  destruct (r_segments _ _ _ _ _ R n g x G) as (seg' & A' & Hg & _ & _ & M & _). rewrite A in A'. injection A' as <-. rewrite Hg in *.
  assert (Ii := nth_error_In _ _ L). apply M in Ii. destruct Ii as (s & S1 & S2). destruct (r_sections _ _ _ _ _ R i s S1) as (sec' & Si' & Hs & _). rewrite Si in Si'. injection Si' as <-.
  destruct (rel_offset gs s n g x S2 G) as (R1 & R2). assert (Lo := owner_below gs s n g x S2 G). rewrite Hs, R1, R2 in *. split.
  - exists g, x, s. split; [exact G |]. split; [exact B |]. split; [| split; [eapply nth_error_In; exact S1 |]; split; [exact S2 |]; unfold in_section; lia].
    intros j g' x' J G' Q. destruct (r_segments _ _ _ _ _ R j g' x' G') as (seg2 & A2 & H2 & _). apply (C j seg2 J A2). rewrite H2. exact Q.
  - split; [reflexivity |]. exists g, x, seg, q, sec. cbn [pf_elf pf_section pf_offset]. split; [exact G |]. split; [exact A |]. split; [reflexivity |]. split; [unfold section_of; rewrite L; exact Si |].
    rewrite Hs, R1. lia.
Qed.
Lemma seek_none gs m a k : rep d h gs ss (pf_elf m) -> mapped gs ss a k -> exists l o, find_segment (pf_elf m) p_vaddr a (f_segments (pf_elf m)) 0 = Some (Some (k, l, o)).
Proof.
  intros R (g & x & s & G & B & C & I & O & Q). destruct (find_segment (pf_elf m) p_vaddr a (f_segments (pf_elf m)) 0) as [r |] eqn:E.
  - destruct (find_segment_some _ _ _ _ _ _ E) as (n & seg & A' & B' & C' & D'). destruct (nth_both _ _ _ _ (r_count _ _ _ _ _ R) A') as ([g1 x1] & G1).
    destruct (r_segments _ _ _ _ _ R n g1 x1 G1) as (seg1 & A1 & H1 & _ & _ & M & _). rewrite A' in A1. injection A1 as <-. rewrite H1 in *. destruct (r_segments _ _ _ _ _ R k g x G) as (seg0 & A0 & H0 & _).
    assert (n = k). { destruct (Nat.lt_trichotomy n k) as [L | [L | L]]; [elim (C n g1 x1 L G1); exact B' | exact L | elim (C' k seg0 L A0); rewrite H0; exact B]. } subst n. rewrite G in G1. injection G1 as <- <-.
    apply In_nth_error in I. destruct I as (i & I). destruct (r_sections _ _ _ _ _ R i s I) as (sec & Si & Hs & _).
    destruct (find_in (pf_elf m) (p_vaddr g) a (g_sections seg) 0) as [[l o] |] eqn:F; [exists l, o; rewrite D'; reflexivity |]. exfalso.
    refine (find_in_none _ _ _ _ _ _ F i sec (proj2 (M i) (ex_intro _ s (conj I O))) Si _).
    + intros j J. apply M in J. destruct J as (t & T & _). destruct (r_sections _ _ _ _ _ R j t T) as (sec' & X & _). exists sec'. exact X.
    + destruct (rel_offset gs s k g x O G) as (R1 & R2). rewrite Hs, R1, R2. unfold in_section in Q. lia.
  - exfalso. destruct (r_segments _ _ _ _ _ R k g x G) as (seg0 & A0 & H0 & _). apply (find_segment_none _ _ _ _ _ E k seg0 A0). rewrite H0. exact B.
Qed.
Lemma seek_spec gs m a : rep d h gs ss (pf_elf m) ->
  (exists k m', seekVirtual m a = (true, m') /\ pf_elf m' = pf_elf m /\ mapped gs ss a k /\ at_address gs m' a k) \/ (seekVirtual m a = (false, m) /\ forall k, ~ mapped gs ss a k).
Proof.
  intros R. unfold seekVirtual. destruct (find_segment (pf_elf m) p_vaddr a (f_segments (pf_elf m)) 0) as [[[[k l] o] |] |] eqn:E.
  - left. destruct (seek_some gs m a k l o R E) as (M & A). exists k. eexists. split; [reflexivity |]. split; [reflexivity |]. split; [exact M | exact A].
  - right. split; [reflexivity |]. intros k M. destruct (seek_none gs m a k R M) as (l & o & Q). congruence.
  - right. split; [reflexivity |]. intros k M. destruct (seek_none gs m a k R M) as (l & o & Q). congruence.
Qed.

Lemma address_read gs m a k : rep d h gs ss (pf_elf m) -> at_address gs m a k -> (forall k g x, nth_error gs k = Some (g, x) -> fine_phdr g) -> (pf_offset m <= a < 4294967296) -> getVirtualAddress m = ROk (Some a).
Proof.
  intros R (Pk & g & x & seg & l & sec & G & A & L & Sec & O1 & O2 & O3) Fg Lim. unfold getVirtualAddress. rewrite Pk, A, L, Sec. destruct (r_segments _ _ _ _ _ R k g x G) as (seg' & A' & H' & _). rewrite A in A'. injection A' as <-.
  assert (F := Fg k g x G). unfold fine_phdr in F. rewrite Forall_forall in F. assert (V : is_word (p_vaddr g)) by (apply F; unfold phdr_fields; cbn [In]; tauto). unfold is_word in V.
  rewrite H', u32_small by lia. f_equal. f_equal. lia.
Qed.

(** ** Writing *)

Definition set_data (k : nat) (o : Z) (y : list Z) (gs : list (phdr * list Z)) : list (phdr * list Z) := change_nth k (fun gx => (fst gx, put (snd gx) o y)) gs.
Lemma set_fst k o y gs : map fst (set_data k o y gs) = map fst gs.
Proof. unfold set_data. revert k. induction gs as [| [g x] gs IH]; intros [| k]; cbn [change_nth map fst]; [reflexivity | reflexivity | reflexivity | rewrite IH; reflexivity]. Qed.
Lemma set_nth k o y gs j g x : nth_error (set_data k o y gs) j = Some (g, x) -> exists x0, nth_error gs j = Some (g, x0) /\ x = if Nat.eqb j k then put x0 o y else x0.
Proof.
  unfold set_data. rewrite change_nth_at. destruct (Nat.eqb j k); [| intros E; exists x; split; [exact E | reflexivity]]. destruct (nth_error gs j) as [[g0 x0] |]; [| discriminate]. cbn [option_map fst snd]. intros E. injection E as <- <-.
  exists x0. split; reflexivity.
Qed.

Lemma rel_set k o y gs s : rel (set_data k o y gs) s = rel gs s.
Proof.
  unfold rel. rewrite set_fst. destruct (owner (map fst gs) s) as [j |]; [| reflexivity]. unfold set_data. rewrite change_nth_at. destruct (Nat.eqb j k); [| reflexivity]. destruct (nth_error gs j) as [[g x] |]; reflexivity.
Qed.
Lemma rep_write gs f k g x seg o y : rep d h gs ss f -> nth_error gs k = Some (g, x) -> nth_error (f_segments f) k = Some seg -> 0 <= o ->
  rep d h (set_data k o y gs) ss (with_segment k (mkSegment (g_hdr seg) (put (g_data seg) o y) (g_sections seg) (g_paddr seg)) f).
Proof.
  intros R G A O. constructor; cbn [with_segment f_hdr f_segments f_sections f_loose].
  - exact (r_hdr _ _ _ _ _ R).
  - rewrite change_nth_length. unfold set_data. rewrite change_nth_length. exact (r_count _ _ _ _ _ R).
  - intros j g1 x1 G1. destruct (set_nth _ _ _ _ _ _ _ G1) as (x0 & G0 & X). destruct (r_segments _ _ _ _ _ R j g1 x0 G0) as (seg1 & A1 & B1 & C1 & D1 & E1 & F1). rewrite change_nth_at, A1, set_fst.
    destruct (Nat.eqb_spec j k) as [-> | N]; cbn [option_map].
    + rewrite A in A1. injection A1 as <-. eexists. split; [reflexivity |]. cbn [g_hdr g_data g_sections g_paddr]. split; [exact B1 |]. split; [rewrite X, C1; reflexivity |]. split; [exact D1 |]. split; [exact E1 | exact F1].
    + exists seg1. split; [reflexivity |]. split; [exact B1 |]. split; [congruence |]. split; [exact D1 |]. split; [exact E1 | exact F1].
  - exact (r_scount _ _ _ _ _ R).
  - intros i s S. rewrite rel_set, set_fst. exact (r_sections _ _ _ _ _ R i s S).
  - exact (r_nodup _ _ _ _ _ R).
  - rewrite set_fst. exact (r_loose _ _ _ _ _ R).
Qed.

Lemma write_spec gs m a k g x y : rep d h gs ss (pf_elf m) -> at_address gs m a k -> nth_error gs k = Some (g, x) ->
  if size x <? a - p_vaddr g + size y then write m y = RUb
  else exists m', write m y = ROk (true, m') /\ rep d h (set_data k (a - p_vaddr g) y gs) ss (pf_elf m') /\ at_address (set_data k (a - p_vaddr g) y gs) m' (a + size y) k.
Proof.
  intros R (Pk & g1 & x1 & seg & l & sec & G1 & A & L & Sec & O1 & O2 & O3) G. rewrite G in G1. injection G1 as <- <-. unfold write. rewrite Pk, A, L, Sec. rewrite O3.
  replace (sh_offset (s_hdr sec) + (a - p_vaddr g - sh_offset (s_hdr sec))) with (a - p_vaddr g) by lia. destruct (r_segments _ _ _ _ _ R k g x G) as (seg' & A' & H' & X' & _). rewrite A in A'. injection A' as <-.
  unfold writeToData. rewrite X'. assert (Lo : a - p_vaddr g <? 0 = false) by lia. rewrite Lo. cbn [orb]. destruct (size x <? a - p_vaddr g + size y) eqn:Q; [reflexivity |]. cbn [rbind]. eexists. split; [reflexivity |].
  cbn [pf_elf].
  assert (Pd : firstn (Z.to_nat (a - p_vaddr g)) x ++ y ++ skipn (Z.to_nat (a - p_vaddr g) + List.length y) x = put (g_data seg) (a - p_vaddr g) y) by (unfold put; rewrite X', Q; reflexivity). rewrite Pd.
  assert (Rw := rep_write gs (pf_elf m) k g x seg (a - p_vaddr g) y R G A ltac:(lia)). split; [exact Rw |].
  split; [reflexivity |]. exists g, (put x (a - p_vaddr g) y). eexists. exists l, sec. cbn [pf_elf pf_section pf_offset with_segment f_segments f_sections].
  split; [unfold set_data; rewrite change_nth_at, Nat.eqb_refl, G; reflexivity |]. split; [rewrite change_nth_at, Nat.eqb_refl, A; reflexivity |]. split; [reflexivity |]. split; [exact Sec |].
  assert (N := size_nonneg y). lia.
Qed.
End Positions.

(** ** Memory *)

Definition sized (gs : list (phdr * list Z)) : Prop := forall k g x, nth_error gs k = Some (g, x) -> p_filesz g = size x.
Lemma memory_at gs a : sized gs -> separate gs -> forall k g x, nth_error gs k = Some (g, x) -> in_segment a g -> memory gs a = nth_error x (Z.to_nat (a - p_vaddr g)).
Proof.
  intros Sz Sp. assert (X : forall n k g x, nth_error (skipn n gs) k = Some (g, x) -> in_segment a g -> memory (skipn n gs) a = nth_error x (Z.to_nat (a - p_vaddr g))).
  { intros n k. revert n. induction k as [| k IH]; intros n g x G I.
    - destruct (skipn n gs) as [| [g0 x0] r] eqn:E; [discriminate G |]. injection G as -> ->. cbn [memory]. assert (G : nth_error gs n = Some (g, x)) by (rewrite <- (Nat.add_0_r n), <- nth_skipn, E; reflexivity).
      rewrite <- (Sz n g x G). unfold in_segment in I. assert (Q : (p_vaddr g <=? a) && (a <? p_vaddr g + p_filesz g) = true) by lia. rewrite Q. reflexivity.
    - destruct (skipn n gs) as [| [g0 x0] r] eqn:E; [discriminate G |]. cbn [nth_error] in G. cbn [memory]. assert (G0 : nth_error gs n = Some (g0, x0)) by (rewrite <- (Nat.add_0_r n), <- nth_skipn, E; reflexivity).
      assert (Er : r = skipn (S n) gs) by (replace (S n) with (n + 1)%nat by lia; rewrite <- skipn_plus, E; reflexivity). rewrite Er in *.
      assert (Gk : nth_error gs (S n + k) = Some (g, x)) by (rewrite <- nth_skipn; exact G). rewrite <- (Sz n g0 x0 G0).
      destruct ((p_vaddr g0 <=? a) && (a <? p_vaddr g0 + p_filesz g0)) eqn:Q; [| apply (IH (S n)); assumption].
      assert (n = S n + k)%nat; [| lia]. eapply (Sp n (S n + k)%nat g0 x0 g x a G0 Gk); [unfold in_segment; lia | exact I]. }
  intros k g x G I. exact (X O k g x G I).
Qed.
Lemma memory_none gs a : sized gs -> (forall k g x, nth_error gs k = Some (g, x) -> ~ in_segment a g) -> memory gs a = None.
Proof.
  induction gs as [| [g x] gs IH]; intros Sz H; [reflexivity |]. cbn [memory]. rewrite <- (Sz O g x eq_refl). assert (N := H O g x eq_refl). unfold in_segment in N.
  assert (Q : (p_vaddr g <=? a) && (a <? p_vaddr g + p_filesz g) = false) by lia. rewrite Q. apply IH; [intros k g' x' G; exact (Sz (S k) g' x' G) | intros k g' x' G; exact (H (S k) g' x' G)].
Qed.
Lemma in_dec_segment a (gs : list (phdr * list Z)) : (exists k g x, nth_error gs k = Some (g, x) /\ in_segment a g) \/ (forall k g x, nth_error gs k = Some (g, x) -> ~ in_segment a g).
Proof.
  induction gs as [| [g x] gs IH]; [right; intros [|] g x E; discriminate E |]. destruct (Z_le_dec (p_vaddr g) a) as [A | A]; [destruct (Z_lt_dec a (p_vaddr g + p_filesz g)) as [B | B] |].
  - left. exists O, g, x. split; [reflexivity | unfold in_segment; lia].
  - destruct IH as [(k & g' & x' & G & I) | N]; [left; exists (S k), g', x'; split; assumption | right; intros [| k] g' x' E; [injection E as <- <-; unfold in_segment; lia | exact (N k g' x' E)]].
  - destruct IH as [(k & g' & x' & G & I) | N]; [left; exists (S k), g', x'; split; assumption | right; intros [| k] g' x' E; [injection E as <- <-; unfold in_segment; lia | exact (N k g' x' E)]].
Qed.

Lemma set_sized k o y gs : 0 <= o -> sized gs -> sized (set_data k o y gs).
Proof. intros O Sz j g x G. destruct (set_nth _ _ _ _ _ _ _ G) as (x0 & G0 & ->). destruct (Nat.eqb j k); [rewrite put_size by exact O |]; exact (Sz j g x0 G0). Qed.
Lemma set_separate k o y gs : separate gs -> separate (set_data k o y gs).
Proof. intros Sp i j g x g' x' a G G' I I'. destruct (set_nth _ _ _ _ _ _ _ G) as (x0 & G0 & _). destruct (set_nth _ _ _ _ _ _ _ G') as (x0' & G0' & _). exact (Sp i j g x0 g' x0' a G0 G0' I I'). Qed.
Lemma memory_write gs k g x a y : sized gs -> separate gs -> nth_error gs k = Some (g, x) -> p_vaddr g <= a -> a - p_vaddr g + size y <= size x ->
  forall b, memory (set_data k (a - p_vaddr g) y gs) b = stored (memory gs) a y b.
Proof.
  intros Sz Sp G Lo Hi b. assert (Sz' := set_sized k (a - p_vaddr g) y gs ltac:(lia) Sz). assert (Sp' := set_separate k (a - p_vaddr g) y gs Sp). assert (Fz := Sz k g x G).
  assert (Nz : forall j g1 x1, nth_error gs j = Some (g1, x1) -> nth_error (set_data k (a - p_vaddr g) y gs) j = Some (g1, if Nat.eqb j k then put x1 (a - p_vaddr g) y else x1)).
  { intros j g1 x1 G1. unfold set_data. rewrite change_nth_at, G1. destruct (Nat.eqb j k); reflexivity. }
  unfold stored. destruct (in_dec_segment b gs) as [(j & g1 & x1 & G1 & I1) | N].
  - rewrite (memory_at _ b Sz' Sp' j g1 _ (Nz j g1 x1 G1) I1). destruct (Nat.eqb_spec j k) as [-> | Nk].
    + rewrite G in G1. injection G1 as <- <-. unfold in_segment in I1. rewrite put_nth by lia. rewrite (memory_at gs b Sz Sp k g x G) by (unfold in_segment; lia).
      destruct ((a <=? b) && (b <? a + size y)) eqn:Q.
      * assert (Z1 : (Nat.ltb (Z.to_nat (b - p_vaddr g)) (Z.to_nat (a - p_vaddr g))) = false) by (apply Nat.ltb_ge; lia). rewrite Z1.
        assert (Z2 : (Nat.ltb (Z.to_nat (b - p_vaddr g)) (Z.to_nat (a - p_vaddr g) + List.length y)) = true) by (apply Nat.ltb_lt; unfold size in *; lia). rewrite Z2. f_equal. lia.
      * destruct (Nat.ltb_spec (Z.to_nat (b - p_vaddr g)) (Z.to_nat (a - p_vaddr g))) as [Z1 | Z1]; [reflexivity |].
        destruct (Nat.ltb_spec (Z.to_nat (b - p_vaddr g)) (Z.to_nat (a - p_vaddr g) + List.length y)) as [Z2 | Z2]; [unfold size in *; lia | reflexivity].
    + rewrite (memory_at gs b Sz Sp j g1 x1 G1 I1). assert (Q : (a <=? b) && (b <? a + size y) = false); [| rewrite Q; reflexivity].
      destruct ((a <=? b) && (b <? a + size y)) eqn:Q; [| reflexivity]. elim Nk. apply (Sp j k g1 x1 g x b G1 G I1). unfold in_segment. lia.
  - rewrite (memory_none gs b Sz N). rewrite (memory_none _ b Sz').
    + destruct ((a <=? b) && (b <? a + size y)) eqn:Q; [| reflexivity]. elim (N k g x G). unfold in_segment. lia.
    + intros j g1 x1 G1. destruct (set_nth _ _ _ _ _ _ _ G1) as (x0 & G0 & _). exact (N j g1 x0 G0).
Qed.

(** ** Patches *)

Lemma stored_same a y f g : (forall b, f b = g b) -> forall b, stored f a y b = stored g a y b.
Proof. intros H b. unfold stored. rewrite H. reflexivity. Qed.
Lemma patched_same ps : forall f g, (forall b, f b = g b) -> forall b, patched ps f b = patched ps g b.
Proof. unfold patched. induction ps as [| p ps IH]; intros f g H b; cbn [fold_left]; [apply H |]. apply IH. apply stored_same, H. Qed.

Lemma advance_keeps m n r : advanceMemory m n = ROk r -> pf_elf (snd r) = pf_elf m.
Proof.
  intros E. unfold advanceMemory in E. apply do_ok in E. destruct E as (a & _ & E). apply ROk_inj in E. subst r. unfold seekVirtual.
  destruct (find_segment _ _ _ _ _) as [[[[k l] o] |] |]; reflexivity.
Qed.
Lemma patch_spec d h ss gs m a y m' : rep d h gs ss (pf_elf m) -> sized gs -> patch m a y = ROk (Some m') ->
  exists k g x, nth_error gs k = Some (g, x) /\ mapped gs ss a k /\ a - p_vaddr g + size y <= size x /\ rep d h (set_data k (a - p_vaddr g) y gs) ss (pf_elf m') /\
    at_address (set_data k (a - p_vaddr g) y gs) m' (a + size y) k.
Proof.
  intros R Sz E. unfold patch in E. destruct (seek_spec d h ss gs m a R) as [(k & m1 & S1 & El & M & At) | (S1 & _)]; rewrite S1 in E.
  - apply do_ok in E. destruct E as (r & Ea & E). cbn [andb] in E. destruct (fst r); [| apply ROk_inj in E; discriminate E]. assert (Ke := advance_keeps _ _ _ Ea). rewrite El in Ke. assert (R2 : rep d h gs ss (pf_elf (snd r))) by (rewrite Ke; exact R).
    destruct (seek_spec d h ss gs (snd r) a R2) as [(k2 & m2 & S2 & El2 & M2 & At2) | (_ & N)]; [| elim (N k M)]. rewrite S2 in E. apply do_ok in E. destruct E as (w & Ew & E). apply ROk_inj in E. injection E as <-.
    assert (M2' := M2). destruct M2 as (g & x & s & G & I & _). assert (W := write_spec d h ss gs m2 a k2 g x y). rewrite El2 in W. specialize (W R2 At2 G). destruct (Z.ltb_spec (size x) (a - p_vaddr g + size y)) as [L | L]; [rewrite W in Ew; discriminate Ew |].
    destruct W as (m3 & W1 & W2 & W3). rewrite W1 in Ew. apply ROk_inj in Ew. subst w. cbn [snd]. exists k2, g, x. split; [exact G |]. split; [exact M2' |]. split; [exact L |]. split; [exact W2 | exact W3].
  - apply do_ok in E. destruct E as (r & _ & E). cbn [andb] in E. apply ROk_inj in E. discriminate E.
Qed.
Lemma patches_spec d h ss : forall ps gs m m', rep d h gs ss (pf_elf m) -> sized gs -> separate gs -> patches m ps = ROk (Some m') ->
  exists gs', rep d h gs' ss (pf_elf m') /\ sized gs' /\ map fst gs' = map fst gs /\ forall b, memory gs' b = patched ps (memory gs) b.
Proof.
  induction ps as [| [a y] ps IH]; intros gs m m' R Sz Sp E; cbn [patches] in E; [apply ROk_inj in E; injection E as <-; exists gs; split; [exact R |]; split; [exact Sz |]; split; [reflexivity | intros b; reflexivity] |]. cbn [fst snd] in E.
  apply do_ok in E. destruct E as (r & Er & E). destruct r as [m1 |]; [| apply ROk_inj in E; discriminate E]. destruct (patch_spec d h ss gs m a y m1 R Sz Er) as (k & g & x & G & M & L & R1 & _).
  assert (Lo : p_vaddr g <= a) by (destruct M as (g1 & x1 & s1 & G1 & I1 & _); rewrite G in G1; injection G1 as <- <-; apply I1).
  destruct (IH (set_data k (a - p_vaddr g) y gs) m1 m' R1 (set_sized k (a - p_vaddr g) y gs ltac:(lia) Sz) (set_separate _ _ _ _ Sp) E) as (gs' & R' & Sz' & Mf & Me).
  exists gs'. split; [exact R' |]. split; [exact Sz' |]. split; [rewrite Mf; apply set_fst |]. intros b. rewrite Me. unfold patched. cbn [fold_left fst snd]. apply patched_same. intros c. exact (memory_write gs k g x a y Sz Sp G Lo L c).
Qed.
