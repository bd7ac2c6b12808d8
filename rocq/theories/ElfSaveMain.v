(** Loading, patching and saving of ELF programs together. *)

Require Import ZArith Lia Bool List Permutation.
Require Import ZifyBool.
Require Import Verif.Ints Verif.IntsLemmas Verif.Res Verif.BytesSpec Verif.ElfModel Verif.ElfProofs Verif.PsxModel Verif.ElfReadModel Verif.ElfReadSpec Verif.ElfReadProofs.
Require Import Verif.ElfSaveModel Verif.ElfSaveSpec Verif.ElfSaveProofs Verif.ElfSaveEnd Verif.ElfSaveLoad Verif.ElfSaveWrite.
Import ListNotations.
Local Open Scope Z_scope.

Definition all_four : list part := [SegmentTable; SectionTable; Segments; LooseSections].

Lemma program_sized big d h gs ss : program big d h gs ss -> sized gs.
Proof. intros P k g x G. exact (proj1 (proj2 (proj2 (proj2 (pg_segments _ _ _ _ _ P k g x G))))). Qed.

Lemma program_saved big d h gs ss f f' order : program big d h gs ss -> populated (map fst gs) ss -> roomy h -> load_elf d = ROk f -> reordered f f' ->
  Permutation order all_four -> size (save order f') < 2147483648 -> exists h' gs' ss', program big (save order f') h' gs' ss' /\ kept d h gs ss (save order f') h' gs' ss'.
Proof.
  intros P Po Ro L O Pm Sz. eapply saved_program; [exact (loaded_program big d h gs ss f f' P L O) | exact Po | exact Ro | exact (program_sized _ _ _ _ _ P) | | exact Pm | exact Sz].
  exists gs. split; [exact P | reflexivity].
Qed.

(** ** The bytes of sections *)

Lemma has_part x p y q n : has x p y -> 0 <= q -> 0 <= n -> q + n <= size y -> bytes_at x (p + q) n = firstn (Z.to_nat n) (skipn (Z.to_nat q) y).
Proof.
  intros H Q N L. apply has_nth in H. destruct H as (P & H). unfold bytes_at. apply nth_same. intros j. rewrite !nth_firstn, !nth_skipn. destruct (Nat.ltb_spec j (Z.to_nat n)) as [J | J]; [| reflexivity].
  replace (Z.to_nat (p + q) + j)%nat with (Z.to_nat p + (Z.to_nat q + j))%nat by lia. apply H. unfold size in L. lia.
Qed.
Lemma nth_2 {A B} (Q : A -> B -> Prop) l l' i y : Forall2 Q l l' -> nth_error l' i = Some y -> exists x, nth_error l i = Some x /\ Q x y.
Proof. intros F. revert i y. induction F as [| a b l l' H F IH]; intros [| i] y E; try discriminate E; [injection E as <-; exists a; split; [reflexivity | exact H] | exact (IH i y E)]. Qed.

Lemma sections_bytes big d h gs ss d' h' gs' ss' : program big d h gs ss -> program big d' h' gs' ss' -> kept d h gs ss d' h' gs' ss' ->
  forall i s s', nth_error ss i = Some s -> nth_error ss' i = Some s' -> has_bits s = true -> section_bytes d' s' = section_bytes d s.
Proof.
  intros P P' K i s s' S S' Hb. destruct (forall2_at _ _ _ (kp_sections _ _ _ _ _ _ _ _ K) i s S) as (s2 & S2 & Q). rewrite S' in S2. injection S2 as <-.
  destruct Q as (_ & Q1 & _ & _ & Q2 & _). assert (Ex : extent s = sh_size s /\ extent s' = sh_size s).
  { unfold extent. rewrite Q1, Q2. unfold has_bits in Hb. destruct (sh_type s =? SHT_NOBITS); [rewrite andb_false_r in Hb; discriminate Hb | split; reflexivity]. }
  unfold section_bytes. destruct Ex as (E1 & E2). rewrite E1, E2. destruct (owner (map fst gs) s) as [k |] eqn:O.
  - destruct (owner_holds _ _ _ O) as (g & G & Hh). rewrite nth_error_map in G. destruct (nth_error gs k) as [[g0 x] |] eqn:Gk; [| discriminate G]. injection G as ->. cbn [fst] in Hh.
    destruct (forall2_at _ _ _ (kp_segments _ _ _ _ _ _ _ _ K) k (g, x) Gk) as ([g' x'] & Gk' & (_ & X)). cbn [snd] in X. subst x'.
    assert (In' := kp_inside _ _ _ _ _ _ _ _ K i s s' k _ _ S S' O Gk Gk'). cbn [fst] in In'.
    destruct (pg_segments _ _ _ _ _ P k g x Gk) as (_ & _ & H1 & Z1 & _). destruct (pg_segments _ _ _ _ _ P' k g' x Gk') as (_ & _ & H2 & _).
    destruct (pg_sections _ _ _ _ _ P i s S) as (_ & Fs & _). destruct (fine_extent s Fs) as (_ & _ & Nn). unfold holds in Hh. rewrite E1 in Hh.
    replace (sh_offset s') with (p_offset g' + (sh_offset s - p_offset g)) by lia. replace (sh_offset s) with (p_offset g + (sh_offset s - p_offset g)) at 2 by lia.
    rewrite (has_part d' (p_offset g') x), (has_part d (p_offset g) x) by (try assumption; lia). reflexivity.
  - exact (kp_loose _ _ _ _ _ _ _ _ K i s s' S S' O Hb).
Qed.

(** ** Patches *)

Lemma memory_kept : forall gs gs', Forall2 (fun g g' => placed_segment (fst g) (fst g') /\ snd g' = snd g) gs gs' -> forall b, memory gs' b = memory gs b.
Proof.
  induction 1 as [| [g x] [g' x'] gs gs' ((_ & V & _) & X) F IH]; intros b; [reflexivity |]. cbn [fst snd] in V, X. subst x'. cbn [memory]. rewrite V, IH. reflexivity.
Qed.
Lemma load_program_elf f m : load_program f = Some m -> pf_elf m = f.
Proof.
  unfold load_program. destruct (negb (e_type (f_hdr f) =? 2)); [discriminate |]. intros E. injection E as <-. destruct (f_segments f) as [| g gs]; [reflexivity |].
  unfold seekVirtual. destruct (find_segment _ _ _ _ _) as [[[[k l] o] |] |]; reflexivity.
Qed.
Lemma program_patched big d h gs ss f f' m ps m' order : program big d h gs ss -> populated (map fst gs) ss -> roomy h -> separate gs -> load_elf d = ROk f -> reordered f f' ->
  load_program f' = Some m -> patches m ps = ROk (Some m') -> Permutation order all_four -> size (save order (pf_elf m')) < 2147483648 ->
  exists gs1 h' gs' ss', map fst gs1 = map fst gs /\ program big (save order (pf_elf m')) h' gs' ss' /\ kept d h gs1 ss (save order (pf_elf m')) h' gs' ss' /\
    forall b, memory gs' b = patched ps (memory gs) b.
Proof.
  intros P Po Ro Sp L O Lp E Pm Sz. assert (R := loaded_program big d h gs ss f f' P L O). rewrite <- (load_program_elf _ _ Lp) in R.
  destruct (patches_spec d h ss ps gs m m' R (program_sized _ _ _ _ _ P) Sp E) as (gs1 & R1 & Sz1 & F1 & M1).
  destruct (saved_program big d h gs1 ss (pf_elf m') R1) with (order := order) as (h' & gs' & ss' & P' & K); [rewrite F1; exact Po | exact Ro | exact Sz1 | exists gs; split; [exact P | symmetry; exact F1] | exact Pm | exact Sz |].
  exists gs1, h', gs', ss'. split; [exact F1 |]. split; [exact P' |]. split; [exact K |]. intros b. rewrite (memory_kept _ _ (kp_segments _ _ _ _ _ _ _ _ K)). apply M1.
Qed.

(** The position is in no segment, or it is an address. *)
Definition well (gs : list (phdr * list Z)) (m : program_file) : Prop := pf_segment m = None \/ exists a k, at_address gs m a k.
Lemma well_address d h ss gs m : rep d h gs ss (pf_elf m) -> well gs m -> exists r, getVirtualAddress m = ROk r.
Proof.
  intros R [N | (a & k & (Pk & g & x & seg & l & sec & G & A & L & Sec & _))]; unfold getVirtualAddress; [rewrite N; eexists; reflexivity |]. rewrite Pk, A, L, Sec. eexists. reflexivity.
Qed.
Lemma well_loaded d h ss gs f m : rep d h gs ss f -> load_program f = Some m -> well gs m.
Proof.
  intros R. unfold load_program. destruct (negb (e_type (f_hdr f) =? 2)); [discriminate |]. intros E. injection E as <-. destruct (f_segments f) as [| g0 gs0]; [left; reflexivity |].
  destruct (seek_spec d h ss gs (mkProgram f None None 0) (p_vaddr (g_hdr g0)) R) as [(k & m' & Q & _ & _ & At) | (Q & _)]; rewrite Q; cbn [snd]; [right; exists (p_vaddr (g_hdr g0)), k; exact At | left; reflexivity].
Qed.
Lemma well_patch d h ss gs m a y m' : rep d h gs ss (pf_elf m) -> sized gs -> patch m a y = ROk (Some m') -> exists gs', rep d h gs' ss (pf_elf m') /\ sized gs' /\ map fst gs' = map fst gs /\ well gs' m'.
Proof.
  intros R Sz E. destruct (patch_spec d h ss gs m a y m' R Sz E) as (k & g & x & G & M & L & R1 & At). destruct M as (g1 & x1 & s & G1 & I & _). rewrite G in G1. injection G1 as <- <-. unfold in_segment in I.
  exists (set_data k (a - p_vaddr g) y gs). split; [exact R1 |]. split; [apply set_sized; [lia | exact Sz] |]. split; [apply set_fst |]. right. exists (a + size y), k. exact At.
Qed.

(** What a patch does, by what it is to change. *)
Inductive outcome := Done | Refused | Broken.
Definition outcome_of {A} (r : res (option A)) : outcome := match r with ROk (Some _) => Done | ROk None => Refused | _ => Broken end.
Lemma mapped_one gs ss a k k' : mapped gs ss a k -> mapped gs ss a k' -> k = k'.
Proof.
  intros (g & x & s & G & I & F & _) (g' & x' & s' & G' & I' & F' & _). destruct (Nat.lt_trichotomy k k') as [L | [L | L]]; [elim (F' k g x L G I) | exact L | elim (F k' g' x' L G' I')].
Qed.
Lemma patch_outcome d h ss gs m a y : rep d h gs ss (pf_elf m) -> sized gs -> well gs m -> (forall k g x, nth_error gs k = Some (g, x) -> fine_phdr g) -> 0 <= a < 4294967296 ->
  (outcome_of (patch m a y) = Done <-> (exists k g x, mapped gs ss a k /\ nth_error gs k = Some (g, x) /\ a + size y <= p_vaddr g + size x) /\ exists k', mapped gs ss (a + size y) k') /\
  (outcome_of (patch m a y) = Refused <-> (forall k, ~ mapped gs ss a k) \/ (forall k, ~ mapped gs ss (a + size y) k)).
Proof.
  intros R Sz W Fg La. unfold patch. destruct (seek_spec d h ss gs m a R) as [(k & m1 & S1 & El & M & At) | (S1 & N)]; rewrite S1.
  - assert (R1 : rep d h gs ss (pf_elf m1)) by (rewrite El; exact R). unfold advanceMemory. assert (M' := M). destruct M' as (g & x & s & G & I & _ & _ & _ & Is).
    assert (V : getVirtualAddress m1 = ROk (Some a)).
    { apply (address_read d h ss gs m1 a k R1 At Fg). destruct At as (_ & g1 & x1 & seg & l & sec & G1 & _ & _ & _ & O1 & O2 & O3). rewrite G in G1. injection G1 as <- <-.
      assert (F := Fg k g x G). unfold fine_phdr in F. rewrite Forall_forall in F. assert (Vw : is_word (p_vaddr g)) by (apply F; unfold phdr_fields; cbn [In]; tauto). unfold is_word in Vw. lia. }
    rewrite V. cbn [rbind]. destruct (seek_spec d h ss gs m1 (a + size y) R1) as [(k2 & m2 & S2 & El2 & M2 & _) | (S2 & N2)]; rewrite S2; cbn [fst snd andb].
    + assert (R2 : rep d h gs ss (pf_elf m2)) by (rewrite El2; exact R1). destruct (seek_spec d h ss gs m2 a R2) as [(k3 & m3 & S3 & El3 & M3 & At3) | (_ & N3)]; [| elim (N3 k M)]. rewrite S3.
      assert (k3 = k) by (eapply mapped_one; [exact M3 | exact M]). subst k3. assert (R3 : rep d h gs ss (pf_elf m3)) by (rewrite El3; exact R2). assert (Wr := write_spec d h ss gs m3 a k g x y R3 At3 G).
      destruct (Z.ltb_spec (size x) (a - p_vaddr g + size y)) as [L | L].
      * rewrite Wr. cbn [rbind outcome_of]. split.
        -- split; [discriminate |]. intros ((k4 & g4 & x4 & M4 & G4 & L4) & _). assert (k4 = k) by (eapply mapped_one; [exact M4 | exact M]). subst k4. rewrite G in G4. injection G4 as <- <-. lia.
        -- split; [discriminate |]. intros [Q | Q]; [elim (Q k M) | elim (Q k2 M2)].
      * destruct Wr as (m4 & Wr & _). rewrite Wr. cbn [rbind outcome_of]. split.
        -- split; [| reflexivity]. intros _. split; [exists k, g, x; split; [exact M |]; split; [exact G | lia] | exists k2; exact M2].
        -- split; [discriminate |]. intros [Q | Q]; [elim (Q k M) | elim (Q k2 M2)].
    + cbn [outcome_of]. split.
      * split; [discriminate |]. intros (_ & k' & Q). elim (N2 k' Q).
      * split; [| reflexivity]. intros _. right. exact N2.
  - unfold advanceMemory. destruct (well_address d h ss gs m R W) as (r & V). rewrite V. cbn [rbind andb outcome_of]. split.
    + split; [discriminate |]. intros ((k & g & x & Q & _) & _). elim (N k Q).
    + split; [| reflexivity]. intros _. left. exact N.
Qed.

(** Writing in parts. *)
Lemma put_app x o y z : 0 <= o -> o + size y + size z <= size x -> put (put x o y) (o + size y) z = put x o (y ++ z).
Proof.
  intros O L. assert (Ny := size_nonneg y). assert (Nz := size_nonneg z). apply nth_same. intros j. rewrite (put_nth _ (o + size y)) by (rewrite ?put_size by lia; lia). rewrite !put_nth by (rewrite ?size_app; lia).
  rewrite app_length. unfold size in *. replace (Z.to_nat (o + Z.of_nat (List.length y))) with (Z.to_nat o + List.length y)%nat by lia.
  destruct (Nat.ltb_spec j (Z.to_nat o + List.length y)) as [A | A].
  - destruct (Nat.ltb_spec j (Z.to_nat o)) as [B | B]; [reflexivity |]. destruct (Nat.ltb_spec j (Z.to_nat o + (List.length y + List.length z))); [| lia]. rewrite nth_error_app1 by lia. reflexivity.
  - destruct (Nat.ltb_spec j (Z.to_nat o)) as [B | B]; [lia |]. destruct (Nat.ltb_spec j (Z.to_nat o + List.length y + List.length z)) as [C | C].
    + destruct (Nat.ltb_spec j (Z.to_nat o + (List.length y + List.length z))); [| lia]. rewrite nth_error_app2 by lia. f_equal. lia.
    + destruct (Nat.ltb_spec j (Z.to_nat o + (List.length y + List.length z))); [lia | reflexivity].
Qed.
Lemma change_twice {A} (a b : A) : forall l k, change_nth k (fun _ => b) (change_nth k (fun _ => a) l) = change_nth k (fun _ => b) l.
Proof. induction l as [| x l IH]; intros [| k]; cbn [change_nth]; [reflexivity | reflexivity | reflexivity | rewrite IH; reflexivity]. Qed.
Lemma write_app m y z : write m (y ++ z) = do r <- write m y; write (snd r) z.
Proof.
  unfold write at 1 2. destruct (pf_segment m) as [k |] eqn:Pk; [| cbn [rbind snd]; unfold write; rewrite Pk; reflexivity].
  destruct (nth_error (f_segments (pf_elf m)) k) as [g |] eqn:G; [| reflexivity]. destruct (pf_section m) as [l |] eqn:L; [| reflexivity]. destruct (section_of (pf_elf m) g l) as [sec |] eqn:Sec; [| reflexivity].
  unfold writeToData. set (o := sh_offset (s_hdr sec) + pf_offset m). rewrite size_app. assert (Ny := size_nonneg y). assert (Nz := size_nonneg z).
  destruct (Z.ltb_spec o 0) as [O | O]; cbn [orb rbind]; [reflexivity |]. destruct (Z.ltb_spec (size (g_data g)) (o + size y)) as [Ly | Ly].
  - destruct (Z.ltb_spec (size (g_data g)) (o + (size y + size z))) as [Lz | Lz]; [reflexivity | lia].
  - cbn [rbind snd]. unfold write. cbn [pf_segment pf_elf pf_section pf_offset with_segment f_segments]. rewrite change_nth_at, Nat.eqb_refl, G. cbn [option_map]. unfold section_of in *. cbn [g_sections with_segment f_sections] in *.
    rewrite Sec. unfold writeToData. cbn [g_data]. replace (sh_offset (s_hdr sec) + (pf_offset m + size y)) with (o + size y) by (unfold o; lia).
    assert (Pd : firstn (Z.to_nat o) (g_data g) ++ y ++ skipn (Z.to_nat o + List.length y) (g_data g) = put (g_data g) o y).
    { unfold put. destruct (Z.ltb_spec (size (g_data g)) (o + size y)); [lia | reflexivity]. } rewrite Pd, put_size by exact O.
    destruct (Z.ltb_spec (o + size y) 0); [lia |]. cbn [orb]. destruct (Z.ltb_spec (size (g_data g)) (o + (size y + size z))) as [Lz | Lz], (Z.ltb_spec (size (g_data g)) (o + size y + size z)) as [Lz' | Lz']; try lia; [reflexivity |].
    assert (P1 := put_app (g_data g) o y z O ltac:(lia)). unfold put at 1 in P1. destruct (Z.ltb_spec (size (put (g_data g) o y)) (o + size y + size z)) as [W | W]; [rewrite put_size in W by exact O; lia |].
    rewrite P1. assert (P2 : firstn (Z.to_nat o) (g_data g) ++ (y ++ z) ++ skipn (Z.to_nat o + List.length (y ++ z)) (g_data g) = put (g_data g) o (y ++ z)).
    { unfold put. rewrite size_app. destruct (Z.ltb_spec (size (g_data g)) (o + (size y + size z))); [lia | reflexivity]. }
    rewrite P2. cbn [rbind g_hdr g_sections g_paddr]. unfold with_segment. cbn [f_hdr f_segments f_sections f_loose f_symtab f_strtab f_ok]. rewrite change_twice, Z.add_assoc. reflexivity.
Qed.

(** ** Physical addresses *)

Lemma loose_length d h ss gs f : rep d h gs ss f -> forall n s, nth_error (loose_sections f) n = Some s -> exists i, nth_error (f_loose f) n = Some i /\ nth_error (f_sections f) i = Some s.
Proof.
  intros R. assert (X : forall l, (forall i, In i l -> exists s, nth_error (f_sections f) i = Some s) -> forall n s, nth_error (flat_map (fun i => match nth_error (f_sections f) i with Some s => [s] | None => [] end) l) n = Some s ->
    exists i, nth_error l n = Some i /\ nth_error (f_sections f) i = Some s).
  { induction l as [| i l IH]; intros H n s E; [destruct n; discriminate E |]. cbn [flat_map] in E. destruct (H i (or_introl eq_refl)) as (t & T). rewrite T in E. cbn [app] in E. destruct n as [| n].
    - injection E as <-. exists i. split; [reflexivity | exact T].
    - apply IH in E; [exact E |]. intros j J. apply H. right. exact J. }
  apply X. intros i I. apply (r_loose _ _ _ _ _ R) in I. destruct I as (s & S & _). destruct (r_sections _ _ _ _ _ R i s S) as (sec & A & _). exists sec. exact A.
Qed.
Lemma find_loose_some a : forall ss k j o, find_loose ss a k = Some (j, o) -> exists n s, j = (k + n)%nat /\ nth_error ss n = Some s /\ o = a - sh_offset (s_hdr s) /\ 0 <= o.
Proof.
  induction ss as [| s ss IH]; intros k j o E; [discriminate E |]. cbn [find_loose] in E. destruct ((sh_offset (s_hdr s) <=? a) && (a <? sh_offset (s_hdr s) + sh_size (s_hdr s))) eqn:Q.
  - injection E as <- <-. exists O, s. split; [lia |]. split; [reflexivity |]. split; [reflexivity | lia].
  - destruct (IH _ _ _ E) as (n & t & J & A). exists (S n), t. split; [lia | exact A].
Qed.
Lemma physical_spec big d h gs ss m a m' : program big d h gs ss -> (exists gs0, rep d h gs0 ss (pf_elf m) /\ map fst gs0 = map fst gs) -> seekPhysical m a = (true, m') ->
  getPhysicalAddress m' = ROk (Some (a - pf_offset m')) /\ 0 <= pf_offset m'.
Proof.
  intros P (gs0 & R & Mf) E. unfold seekPhysical in E. destruct (find_segment (pf_elf m) p_offset a (f_segments (pf_elf m)) 0) as [[[[k l] o] |] |] eqn:F.
  - injection E as <-. destruct (find_segment_some _ _ _ _ _ _ F) as (n & seg & A & B & C & D). destruct (find_in (pf_elf m) (p_offset (g_hdr seg)) a (g_sections seg) 0) as [[l' o'] |] eqn:Fi; [| discriminate D]. injection D as -> -> ->.
    destruct (find_in_some _ _ _ _ _ _ _ Fi) as (q & i & sec & -> & L & Si & Ho & Rg). cbn [plus] in *. unfold getPhysicalAddress. cbn [pf_segment pf_section pf_elf pf_offset]. unfold section_of. rewrite A, L, Si.
    destruct (nth_both _ _ _ _ (r_count _ _ _ _ _ R) A) as ([g x] & G). destruct (r_segments _ _ _ _ _ R n g x G) as (seg' & A' & Hg & _ & _ & M & _). rewrite A in A'. injection A' as <-. rewrite Hg in *.
    assert (Ii := nth_error_In _ _ L). apply M in Ii. destruct Ii as (s & S1 & S2). destruct (r_sections _ _ _ _ _ R i s S1) as (sec' & Si' & Hs & _). rewrite Si in Si'. injection Si' as <-.
    destruct (rel_offset gs0 s n g x S2 G) as (R1 & R2). destruct (pg_sections _ _ _ _ _ P i s S1) as (_ & Fs & Lim & _). destruct (fine_extent s Fs) as (X1 & X2 & _).
    rewrite Hs, R1 in *. replace (p_offset g + (sh_offset s - p_offset g)) with (sh_offset s) in * by lia. rewrite u32_small by lia. split; [f_equal; f_equal; lia | lia].
  - discriminate E.
  - destruct (find_loose (loose_sections (pf_elf m)) a 0) as [[i o] |] eqn:Fl; [| discriminate E]. injection E as <-. destruct (find_loose_some _ _ _ _ _ Fl) as (n & sec & -> & L & Ho & Nn). cbn [plus].
    unfold getPhysicalAddress. cbn [pf_segment pf_section pf_elf pf_offset]. rewrite L. split; [f_equal; f_equal; lia | exact Nn].
Qed.

(** ** Virtual addresses *)

Lemma at_range d h ss gs m a k : rep d h gs ss (pf_elf m) -> (forall k g x, nth_error gs k = Some (g, x) -> fine_phdr g) -> at_address gs m a k -> a < 4294967296 -> getVirtualAddress m = ROk (Some a).
Proof.
  intros R Fg At L. apply (address_read d h ss gs m a k R At Fg). destruct At as (_ & g & x & seg & l & sec & G & _ & _ & _ & O1 & O2 & O3).
  assert (F := Fg k g x G). unfold fine_phdr in F. rewrite Forall_forall in F. assert (Vw : is_word (p_vaddr g)) by (apply F; unfold phdr_fields; cbn [In]; tauto). unfold is_word in Vw. lia.
Qed.
Lemma virtual_spec d h ss gs m a : rep d h gs ss (pf_elf m) -> (forall k g x, nth_error gs k = Some (g, x) -> fine_phdr g) -> 0 <= a < 4294967296 ->
  (fst (seekVirtual m a) = true <-> exists k, mapped gs ss a k) /\
  (fst (seekVirtual m a) = true -> getVirtualAddress (snd (seekVirtual m a)) = ROk (Some a)) /\
  (fst (seekVirtual m a) = false -> snd (seekVirtual m a) = m).
Proof.
  intros R Fg L. destruct (seek_spec d h ss gs m a R) as [(k & m1 & S1 & El & M & At) | (S1 & N)]; rewrite S1; cbn [fst snd].
  - split; [split; [intros _; exists k; exact M | reflexivity] |]. split; [| discriminate]. intros _. apply (at_range d h ss gs m1 a k); [rewrite El; exact R | exact Fg | exact At | lia].
  - split; [split; [discriminate | intros (k & Q); elim (N k Q)] |]. split; [discriminate | reflexivity].
Qed.
Lemma written_spec d h ss gs m a y m' : rep d h gs ss (pf_elf m) -> (forall k g x, nth_error gs k = Some (g, x) -> fine_phdr g) -> 0 <= a -> a + size y < 4294967296 ->
  fst (seekVirtual m a) = true -> write (snd (seekVirtual m a)) y = ROk (true, m') -> getVirtualAddress m' = ROk (Some (a + size y)).
Proof.
  intros R Fg La Ly S E. destruct (seek_spec d h ss gs m a R) as [(k & m1 & S1 & El & M & At) | (S1 & N)]; rewrite S1 in S, E; cbn [fst snd] in S, E; [| discriminate S].
  destruct M as (g & x & s & G & _). assert (R1 : rep d h gs ss (pf_elf m1)) by (rewrite El; exact R). assert (W := write_spec d h ss gs m1 a k g x y R1 At G).
  destruct (size x <? a - p_vaddr g + size y); [rewrite W in E; discriminate E |]. destruct W as (m2 & W & R2 & At2). rewrite W in E. apply ROk_inj in E. injection E as <-.
  refine (at_range d h ss _ m2 _ k R2 _ At2 Ly). intros j g1 x1 G1. destruct (set_nth _ _ _ _ _ _ _ G1) as (x0 & G0 & _). exact (Fg j g1 x0 G0).
Qed.
