(** Proofs on the words that references of imported sections become. *)

Require Import ZArith Lia Bool String List.
Require Import ZifyBool.
Require Import Verif.Ints Verif.IntsLemmas Verif.Res Verif.ElfModel Verif.ElfSpec Verif.ElfProofs Verif.ElfRelocProofs.
Import ListNotations.
Local Open Scope Z_scope.
Ltac Zify.zify_post_hook ::= Z.div_mod_to_equations.

(** ** One section *)

Lemma pairs_middle {A} (R : A -> A -> Prop) pre x post : ForallOrdPairs R (pre ++ x :: post) ->
  (forall y, In y pre -> R y x) /\ (forall y, In y post -> R x y).
Proof.
  induction pre as [| z pre IH]; cbn [app]; intros H; inversion H as [| ? ? H1 H2]; subst.
  - split; [intros y [] |]. rewrite Forall_forall in H1. exact H1.
  - destruct (IH H2) as (A1 & A2). split; [| exact A2]. intros y [<- | I]; [| auto].
    rewrite Forall_forall in H1. apply H1, in_app_iff. right. left. reflexivity.
Qed.

Section OneSection.
Variables (m : machine) (labels : string -> option elabel) (big : bool) (symtab : list esym) (offsets : list (Z * Z)).
Variables (s : esec) (base : Z) (data' : list Z).
Let data := se_data s.
Hypothesis Hsep : separate s.
Hypothesis Hsize : Z.of_nat (length (se_data s)) = se_size s.
Hypothesis Hmax : se_size s < 2147483648.
Hypothesis Hrel : relocate_section m labels big symtab offsets s base = ROk (data', true).
Let relocs := relocations m labels big symtab offsets (se_data s) base.
Let rdat := relocation_data m labels big symtab offsets (se_data s) base.

Lemma site_eq r : In r (se_rels s) -> site base r = r_offset r + base.
Proof.
  intros I. destruct Hsep as (_ & F). rewrite Forall_forall in F. specialize (F r I). unfold site. rewrite s32_small by lia. reflexivity.
Qed.
Lemma site_inside r : In r (se_rels s) -> inside (se_data s) (r_offset r).
Proof. intros I. destruct Hsep as (_ & F). rewrite Forall_forall in F. specialize (F r I). unfold inside. lia. Qed.

Lemma section_actions : exists acts hs acts', relocs [] (se_rels s) = ROk (acts, hs, true) /\ finish m hs = ROk (acts', true) /\
  apply_actions big (se_data s) base (acts ++ acts') = ROk data' /\
  (forall a, In a (acts ++ acts') -> exists r, In r (se_rels s) /\ fst a = r_offset r + base).
Proof.
  unfold relocate_section in Hrel. apply do_ok in Hrel. destruct Hrel as ([[acts hs] ok] & R & H).
  apply do_ok in H. destruct H as ([acts' ok'] & F & H). apply do_ok in H. destruct H as (d & D & H).
  apply ok2 in H. cbn [fst snd] in H, D. destruct H as (-> & E). apply andb_prop in E. destruct E as (-> & ->).
  exists acts, hs, acts'. split; [exact R |]. split; [exact F |]. split; [exact D |].
  destruct (relocs_sites _ _ _ _ _ _ _ _ _ _ _ R) as (A & B).
  assert (G : forall o, from_sites base [] (se_rels s) o -> exists r, In r (se_rels s) /\ o = r_offset r + base).
  { intros o [(h & [] & _) | (r & I & E)]. exists r. split; [exact I |]. rewrite <- E. apply site_eq, I. }
  intros a I. apply in_app_iff in I. destruct I as [I | I]; [apply G, A, I |].
  assert (Q : exists h, In h hs /\ h_offset h = fst a).
  { destruct m; cbn [finish] in F; try (apply ok2 in F; destruct F as (<- & _); destruct I).
    destruct hs as [| h0 hs0]; cbn [mips_finish] in F; [apply ok2 in F; destruct F as (<- & _); destruct I |].
    apply (process_sites _ _ _ _ _ F a I). }
  destruct Q as (h & Ih & E). rewrite <- E. apply G, B, Ih.
Qed.

(** The last value written at the site of a relocation. *)
Lemma last_value pre r post A B w : se_rels s = pre ++ r :: post ->
  apply_actions big (se_data s) base (A ++ B) = ROk data' ->
  (forall a, In a (A ++ B) -> exists r, In r (se_rels s) /\ fst a = r_offset r + base) ->
  (exists a, In a B /\ fst a = r_offset r + base) ->
  (forall a, In a B -> fst a = r_offset r + base -> snd a = w) ->
  word_at big data' (r_offset r) = u32 w.
Proof.
  intros E H G X V. rewrite apply_app in H. apply do_ok in H. destruct H as (d & D & H).
  assert (Ir : In r (se_rels s)) by (rewrite E; apply in_elt).
  assert (Rng : forall a, In a (A ++ B) -> in_range (se_data s) base a).
  { intros a I. destruct (G a I) as (r' & I' & E'). unfold in_range. rewrite E'. replace (r_offset r' + base - base) with (r_offset r') by lia. apply site_inside, I'. }
  pose proof (apply_length _ _ _ _ _ D) as L.
  replace (r_offset r) with (r_offset r + base - base) by lia.
  apply (apply_word big base (r_offset r + base) w B d data').
  - apply Forall_forall. intros a I. apply (in_range_length (se_data s)); [exact L |]. apply Rng, in_app_iff. auto.
  - exact H.
  - pose proof (site_inside r Ir) as []. lia.
  - apply Forall_forall. intros a I. apply V, I.
  - apply Forall_forall. intros a I. destruct (G a ltac:(apply in_app_iff; auto)) as (r' & I' & ->).
    destruct Hsep as (S1 & _). rewrite E in S1. apply pairs_middle in S1. destruct S1 as (S1 & S2).
    rewrite E in I'. apply in_app_iff in I'. unfold apart in *. destruct I' as [I' | [-> | I']]; [specialize (S1 r' I') | | specialize (S2 r' I')]; lia.
  - right. apply Exists_exists. exact X.
Qed.

Lemma other_site pre r post r' : se_rels s = pre ++ r :: post -> In r' pre \/ In r' post -> site base r' <> site base r.
Proof.
  intros E I. assert (I1 : In r' (se_rels s)) by (rewrite E; apply in_app_iff; destruct I; [left | right; right]; assumption).
  assert (I2 : In r (se_rels s)) by (rewrite E; apply in_elt). rewrite !site_eq by assumption.
  destruct Hsep as (S1 & _). rewrite E in S1. apply pairs_middle in S1. destruct S1 as (S1 & S2). unfold apart in *.
  destruct I as [I | I]; [specialize (S1 r' I) | specialize (S2 r' I)]; lia.
Qed.

(** A relocation that writes its word at once. *)
Lemma simple_site pre r post d w pr h1 h2 a1 : se_rels s = pre ++ r :: post ->
  isDummyRelocationType m (r_type r) = false -> rdat r = ROk (Some d) ->
  relocs [] pre = ROk (a1, h1, true) ->
  relocateOpcode m (r_type r) d h1 = ROk (pr ++ [(d_offset d, w)], h2, true) ->
  (forall a, In a pr -> exists h, In h h1 /\ h_offset h = fst a) -> (forall h, In h h2 -> In h h1) ->
  word_at big data' (r_offset r) = u32 w.
Proof.
  intros E N D P O Hp Hh. destruct section_actions as (acts & hs & acts' & R & F & Ap & G).
  rewrite E in R. destruct (relocs_split _ _ _ _ _ _ _ _ _ _ _ _ _ R N) as (b1 & g1 & d' & b2 & g2 & b3 & R1 & _ & D' & O' & R3 & ->).
  unfold rdat in D. rewrite D in D'. apply ROk_inj in D'. assert (Q : d' = d) by congruence. subst d'.
  unfold relocs in P. rewrite P in R1. apply ok3 in R1. destruct R1 as (<- & <- & _).
  rewrite O in O'. apply ok3 in O'. destruct O' as (<- & <- & _).
  assert (Ir : In r (se_rels s)) by (rewrite E; apply in_elt).
  pose proof (data_offset _ _ _ _ _ _ _ _ _ D) as Eo. rewrite (site_eq r Ir) in Eo.
  apply (last_value pre r post (a1 ++ pr) ([(d_offset d, w)] ++ b3 ++ acts') w E).
  - rewrite <- Ap. f_equal. rewrite <- !app_assoc. reflexivity.
  - intros a I. apply G. repeat rewrite <- app_assoc in I. repeat rewrite <- app_assoc. exact I.
  - exists (d_offset d, w). split; [left; reflexivity | exact Eo].
  - intros a I Ea. apply in_app_iff in I. destruct I as [[<- | []] | I]; [reflexivity |]. exfalso.
    destruct (relocs_sites _ _ _ _ _ _ _ _ _ _ _ P) as (_ & H1).
    destruct (relocs_sites _ _ _ _ _ _ _ _ _ _ _ R3) as (A3 & H3).
    assert (Old : forall o, from_sites base h2 post o -> o <> r_offset r + base).
    { intros o Fo Eq. rewrite <- (site_eq r Ir) in Eq. subst o. destruct Fo as [(h & Ih & Eh) | (r' & I' & E')].
      - apply Hh in Ih. destruct (H1 h Ih) as [(h' & [] & _) | (r' & I' & E')].
        apply (other_site pre r post r' E); [left; exact I' | congruence].
      - apply (other_site pre r post r' E); [right; exact I' | exact E']. }
    apply in_app_iff in I. destruct I as [I | I]; [apply (Old (fst a)); [apply A3, I | exact Ea] |].
    assert (Q : exists h, In h hs /\ h_offset h = fst a).
    { destruct m; cbn [finish] in F; try (apply ok2 in F; destruct F as (<- & _); destruct I).
      destruct hs as [| h0 hs0]; cbn [mips_finish] in F; [apply ok2 in F; destruct F as (<- & _); destruct I |].
      apply (process_sites _ _ _ _ _ F a I). }
    destruct Q as (h & Ih & Eh). apply (Old (h_offset h)); [apply H3, Ih | congruence].
Qed.

(** Bytes outside of the sites. *)
Lemma other_bytes k : 0 <= k -> (forall r, In r (se_rels s) -> k < r_offset r \/ r_offset r + 4 <= k) -> byte_at data' k = byte_at (se_data s) k.
Proof.
  intros Hk O. destruct section_actions as (acts & hs & acts' & R & F & Ap & G).
  destruct (apply_total big base (acts ++ acts') (se_data s)) as (d & D & B).
  { apply Forall_forall. intros a I. destruct (G a I) as (r & Ir & E). unfold in_range. rewrite E. replace (r_offset r + base - base) with (r_offset r) by lia. apply site_inside, Ir. }
  rewrite Ap in D. apply ROk_inj in D. subst d. apply B; [exact Hk |]. apply Forall_forall. intros a I.
  destruct (G a I) as (r & Ir & E). unfold off_site. rewrite E. specialize (O r Ir). lia.
Qed.
End OneSection.

(** ** References *)

Lemma imported_section m labels start fs out f p s x : imported m labels start fs out f p s x ->
  well_formed f /\ In s (ef_sections f) /\ map fst (p_offsets p) = map se_index (ef_sections f) /\ Z.of_nat (length (se_data s)) = se_size s /\
  se_size s < 2147483648 /\ Forall is_byte (se_data s) /\
  exists data, relocate_section m labels (ef_big f) (ef_symtab f) (p_offsets p) s x = ROk (data, true) /\
    (forall k, 0 <= k < se_size s -> byte_at out (x - start + k) = byte_at data k) /\
    (forall r, In r (se_rels s) -> after f out start x r = word_at (ef_big f) data (r_offset r)).
Proof.
  intros [(size & ps & R & I) W P N S].
  destruct (section_content _ _ _ _ _ _ _ _ _ _ _ _ W R I P N) as (Wf & Ix & B1 & B2 & data & oks & D1 & D2 & D3 & D4).
  pose proof (proj1 (placed_eq f p s x Ix (wf_index f Wf)) P) as (Is & _).
  split; [exact Wf |]. split; [exact Is |]. split; [exact Ix |]. split; [apply (wf_data f Wf s Is N) |]. split; [apply (wf_size f Wf s Is) |].
  split; [apply (wf_bytes f Wf s Is) |].
  exists data. rewrite (D2 eq_refl) in D1. split; [exact D1 |]. split; [exact D4 |].
  intros r Ir. unfold after. apply word_same. intros k Hk. destruct S as (_ & F). rewrite Forall_forall in F. specialize (F r Ir).
  replace (x - start + r_offset r + k) with (x - start + (r_offset r + k)) by lia. apply D4. lia.
Qed.

Definition is_thumb (d : rdata) : bool := (d_type d =? STT_FUNC) && negb (d_info d =? 0).

Lemma odd_info v : negb (v mod 2 =? 0) = Z.odd v.
Proof. rewrite Zmod_odd. destruct (Z.odd v); reflexivity. Qed.

Lemma refers_data m labels f p s x r a t : well_formed f -> map fst (p_offsets p) = map se_index (ef_sections f) ->
  inside (se_data s) (r_offset r) -> r_offset r < 2147483648 -> refers m labels f p r a t ->
  exists d, relocation_data m labels (ef_big f) (ef_symtab f) (p_offsets p) (se_data s) x r = ROk (Some d) /\
    d_offset d = r_offset r + x /\ d_base d = a /\ d_opcode d = before f s r /\ d_addend d = r_addend r /\
    (match m with Arm _ => is_thumb d = t | _ => True end).
Proof.
  intros W Ix In_ Lt (y & L & Y & C & A). unfold relocation_data. rewrite Y.
  assert (E32 : s32 (r_offset r) = r_offset r) by (destruct In_; apply s32_small; lia). rewrite E32.
  rewrite (get_word _ _ _ In_). cbn [rbind].
  destruct (setSymbolAddress m (sy_value y) (sy_type y)) as [v i] eqn:Es. cbv zeta.
  assert (Ev : v = entry m y).
  { unfold entry. destruct m; cbn [setSymbolAddress] in Es; [congruence | | congruence]. destruct (sy_type y =? STT_FUNC); injection Es as <- _; lia. }
  assert (Ei : match m with Arm _ => (sy_type y =? STT_FUNC) && negb (i =? 0) = thumb_code y | _ => True end).
  { unfold thumb_code. destruct m; cbn [setSymbolAddress] in Es; auto. destruct (sy_type y =? STT_FUNC); injection Es as _ <-; cbn [andb]; [apply odd_info | reflexivity]. }
  destruct A as [l Sh Nm Lb | Sh | s' x' Pl Sh | v' Sh _].
  - rewrite Sh. cbn [Z.eqb]. apply String.eqb_neq in Nm. rewrite Nm, Lb. eexists. split; [reflexivity |].
    cbn [d_offset d_base d_opcode d_addend]. repeat split. destruct m; auto. unfold is_thumb. cbn [d_type d_info]. destruct (lb_data l); reflexivity.
  - rewrite Sh. change (SHN_ABS =? 0) with false. cbv iota. rewrite offset_missing.
    + eexists. split; [reflexivity |]. cbn [d_offset d_base d_opcode d_addend]. rewrite Ev. repeat split. destruct m; auto.
    + rewrite Ix. intros I. apply in_map_iff in I. destruct I as (s' & E & I). pose proof (wf_special f W s' I). unfold SHN_ABS in E. lia.
  - apply (placed_eq f p s' x' Ix (wf_index f W)) in Pl. destruct Pl as (I & ->). rewrite Sh.
    pose proof (wf_special f W s' I). replace (se_index s' =? 0) with false by lia.
    eexists. split; [reflexivity |]. cbn [d_offset d_base d_opcode d_addend]. rewrite Ev. repeat split. destruct m; auto.
  - contradiction.
Qed.

(** A reference in an imported section, ready for the machines. *)
Lemma reference m labels start fs out f p s x r a t : imported m labels start fs out f p s x -> In r (se_rels s) -> refers m labels f p r a t ->
  exists d, relocation_data m labels (ef_big f) (ef_symtab f) (p_offsets p) (se_data s) x r = ROk (Some d) /\
    d_offset d = r_offset r + x /\ d_base d = a /\ d_opcode d = before f s r /\ d_addend d = r_addend r /\
    (match m with Arm _ => is_thumb d = t | _ => True end) /\ 0 <= before f s r < 4294967296.
Proof.
  intros Im I Rf. destruct (imported_section _ _ _ _ _ _ _ _ _ Im) as (W & Is & Ix & Ls & Mx & By & _).
  destruct (im_separate _ _ _ _ _ _ _ _ _ Im) as (_ & F). rewrite Forall_forall in F. specialize (F r I).
  destruct (refers_data m labels f p s x r a t W Ix) as (d & D); [unfold inside; lia | lia | exact Rf |].
  exists d. destruct D as (D1 & D2 & D3 & D4 & D5 & D6). repeat (split; [assumption |]). apply word_range, By.
Qed.

(** ** SuperH *)

Lemma sh_words labels start fs out f p s x r a t : imported Sh labels start fs out f p s x -> In r (se_rels s) -> refers Sh labels f p r a t ->
  (r_type r = R_SH_DIR32 -> after f out start x r = u32 (before f s r + a + r_addend r)) /\
  (r_type r = R_SH_REL32 -> after f out start x r = u32 (before f s r + a + r_addend r - (x + r_offset r))).
Proof.
  intros Im I Rf. destruct (reference _ _ _ _ _ _ _ _ _ _ _ _ Im I Rf) as (d & D & Do & Db & Dp & Da & _ & Rg).
  destruct (imported_section _ _ _ _ _ _ _ _ _ Im) as (W & Is & Ix & Ls & Mx & By & data & Rl & _ & Aft).
  rewrite (Aft r I). destruct (in_split _ _ I) as (pre & post & E).
  destruct (section_actions _ _ _ _ _ _ _ _ (im_separate _ _ _ _ _ _ _ _ _ Im) Mx Rl) as (acts & hs & acts' & R & _).
  rewrite E in R. destruct (relocs_split _ _ _ _ _ _ _ _ _ _ _ _ _ R eq_refl) as (b1 & g1 & d' & b2 & g2 & b3 & R1 & _ & D' & O' & R3 & _).
  assert (Gen : forall w, sh_relocate (r_type r) d = ([(d_offset d, w)], true) -> word_at (ef_big f) data (r_offset r) = u32 w).
  { intros w Ew. apply (simple_site Sh labels (ef_big f) (ef_symtab f) (p_offsets p) s x data (im_separate _ _ _ _ _ _ _ _ _ Im) Ls Mx Rl pre r post d w [] g1 g1 b1 E eq_refl D R1).
    - cbn [relocateOpcode app]. rewrite Ew. reflexivity.
    - intros b [].
    - auto. }
  split; intros T.
  - rewrite (Gen (u32 (d_opcode d + s32 (d_base d + d_addend d)))); [| unfold sh_relocate; rewrite T; reflexivity].
    rewrite u32_idem, Db, Dp, Da. pose proof (s32_mod (a + r_addend r)). unfold u32. lia.
  - rewrite (Gen (u32 (d_opcode d + s32 (d_base d - d_offset d + d_addend d)))); [| unfold sh_relocate; rewrite T; reflexivity].
    rewrite u32_idem, Db, Dp, Da, Do. pose proof (s32_mod (a - (r_offset r + x) + r_addend r)). unfold u32. lia.
Qed.

Lemma reference_opcode m labels start fs out f p s x r a t : imported m labels start fs out f p s x -> In r (se_rels s) -> refers m labels f p r a t ->
  isDummyRelocationType m (r_type r) = false ->
  exists d h1 a2 h2, d_offset d = r_offset r + x /\ d_base d = a /\ d_opcode d = before f s r /\
    (match m with Arm _ => is_thumb d = t | _ => True end) /\ 0 <= before f s r < 4294967296 /\
    relocateOpcode m (r_type r) d h1 = ROk (a2, h2, true) /\
    (forall pr w, a2 = pr ++ [(d_offset d, w)] -> (forall b, In b pr -> exists h, In h h1 /\ h_offset h = fst b) ->
       (forall h, In h h2 -> In h h1) -> after f out start x r = u32 w).
Proof.
  intros Im I Rf Nd. destruct (reference _ _ _ _ _ _ _ _ _ _ _ _ Im I Rf) as (d & D & Do & Db & Dp & Da & Dt & Rg).
  destruct (imported_section _ _ _ _ _ _ _ _ _ Im) as (W & Is & Ix & Ls & Mx & By & data & Rl & _ & Aft).
  destruct (in_split _ _ I) as (pre & post & E).
  destruct (section_actions _ _ _ _ _ _ _ _ (im_separate _ _ _ _ _ _ _ _ _ Im) Mx Rl) as (acts & hs & acts' & R & _).
  rewrite E in R. destruct (relocs_split _ _ _ _ _ _ _ _ _ _ _ _ _ R Nd) as (b1 & g1 & d' & b2 & g2 & b3 & R1 & _ & D' & O' & R3 & _).
  rewrite D in D'. apply ROk_inj in D'. assert (Q : d' = d) by congruence. subst d'.
  exists d, g1, b2, g2. repeat (split; [assumption |]). intros pr w -> Hp Hh. rewrite (Aft r I).
  apply (simple_site m labels (ef_big f) (ef_symtab f) (p_offsets p) s x data (im_separate _ _ _ _ _ _ _ _ _ Im) Ls Mx Rl pre r post d w pr g1 g2 b1 E Nd D R1 O' Hp Hh).
Qed.

(** ** MIPS *)

(** A word and the two parts of a mask. *)
Lemma land_split op hi lo : Z.land hi lo = 0 -> Z.lor hi lo = 4294967295 -> 0 <= op < 4294967296 -> Z.land op hi = op - Z.land op lo.
Proof.
  intros A B C. assert (E : Z.land op 4294967295 = op) by (rewrite land_ffffffff; apply Z.mod_small, C).
  rewrite <- B, Z.land_lor_distr_r in E. rewrite lor_add_disjoint in E; [lia |].
  apply Z.bits_inj. intros i. rewrite !Z.land_spec, Z.bits_0. apply (f_equal (fun z => Z.testbit z i)) in A. rewrite Z.land_spec, Z.bits_0 in A.
  destruct (Z.testbit op i), (Z.testbit hi i), (Z.testbit lo i); cbn in *; congruence.
Qed.
Lemma land_ffff0000 op : 0 <= op < 4294967296 -> Z.land op 0xFFFF0000 = op / 65536 * 65536.
Proof. intros H. rewrite (land_split op 0xFFFF0000 65535) by (assumption || reflexivity). rewrite land_65535. lia. Qed.
Lemma land_fc000000 op : 0 <= op < 4294967296 -> Z.land op 0xFC000000 = op / 67108864 * 67108864.
Proof. intros H. rewrite (land_split op 0xFC000000 67108863) by (assumption || reflexivity). rewrite land_3ffffff. lia. Qed.
Lemma land_ff000000 op : 0 <= op < 4294967296 -> Z.land op 0xFF000000 = op / 16777216 * 16777216.
Proof. intros H. rewrite (land_split op 0xFF000000 16777215) by (assumption || reflexivity). rewrite land_ffffff. lia. Qed.

Lemma mips_word labels start fs out f p s x r a t : imported Mips labels start fs out f p s x -> In r (se_rels s) -> refers Mips labels f p r a t ->
  r_type r = R_MIPS_32 -> after f out start x r = u32 (before f s r + a).
Proof.
  intros Im I Rf T. destruct (reference_opcode _ _ _ _ _ _ _ _ _ _ _ _ Im I Rf eq_refl) as (d & h1 & a2 & h2 & Do & Db & Dp & _ & Rg & O & G).
  cbn [relocateOpcode] in O. unfold mips_relocate in O. rewrite T in O. cbv zeta in O. change (R_MIPS_32 =? R_MIPS_26) with false in O.
  change (R_MIPS_32 =? R_MIPS_32) with true in O. cbv iota in O. apply ok3 in O. destruct O as (<- & <- & _).
  rewrite (G [] (u32 (d_opcode d + s32 (d_base d))) eq_refl); [| intros b [] | auto].
  rewrite u32_idem, Db, Dp. pose proof (s32_mod a). unfold u32. lia.
Qed.

Lemma mips_jump labels start fs out f p s x r a t : imported Mips labels start fs out f p s x -> In r (se_rels s) -> refers Mips labels f p r a t ->
  r_type r = R_MIPS_26 ->
  after f out start x r / 67108864 = before f s r / 67108864 /\ after f out start x r mod 67108864 = (before f s r mod 67108864 + a / 4) mod 67108864.
Proof.
  intros Im I Rf T. destruct (reference_opcode _ _ _ _ _ _ _ _ _ _ _ _ Im I Rf eq_refl) as (d & h1 & a2 & h2 & Do & Db & Dp & _ & Rg & O & G).
  cbn [relocateOpcode] in O. unfold mips_relocate in O. rewrite T in O. cbv zeta in O.
  change (R_MIPS_26 =? R_MIPS_26) with true in O. cbv iota in O. apply ok3 in O. destruct O as (<- & <- & _).
  rewrite (G [] _ eq_refl); [| intros b [] | auto].
  rewrite Db, Dp in *. rewrite land_fc000000 by exact Rg. rewrite !land_3ffffff, shiftr_div by lia. change (2 ^ 2) with 4.
  revert Rg. generalize (before f s r) as b. clear. intros b Rg.
  change (b / 67108864 * 67108864) with (b / 67108864 * 2 ^ 26).
  rewrite lor_mul_pow2_small by (change (2 ^ 26) with 67108864; lia). change (2 ^ 26) with 67108864.
  set (l := (b mod 67108864 + a / 4) mod 67108864). assert (0 <= l < 67108864) by (unfold l; apply Z.mod_pos_bound; lia).
  clearbody l. unfold u32. split; lia.
Qed.

Lemma mips_low labels start fs out f p s x r a t : imported Mips labels start fs out f p s x -> In r (se_rels s) -> refers Mips labels f p r a t ->
  r_type r = R_MIPS_LO16 ->
  after f out start x r / 65536 = before f s r / 65536 /\ after f out start x r mod 65536 = (before f s r + a) mod 65536.
Proof.
  intros Im I Rf T. destruct (reference_opcode _ _ _ _ _ _ _ _ _ _ _ _ Im I Rf eq_refl) as (d & h1 & a2 & h2 & Do & Db & Dp & _ & Rg & O & G).
  cbn [relocateOpcode] in O. unfold mips_relocate in O. rewrite T in O. cbv zeta in O.
  change (R_MIPS_LO16 =? R_MIPS_26) with false in O. change (R_MIPS_LO16 =? R_MIPS_32) with false in O.
  change (R_MIPS_LO16 =? R_MIPS_HI16) with false in O. change (R_MIPS_LO16 =? R_MIPS_LO16) with true in O. cbv iota in O.
  apply do_ok in O. destruct O as ([ac ok] & P & O). apply ok3 in O. cbn [fst snd] in O. destruct O as (<- & <- & ->).
  rewrite (G ac _ eq_refl); [| apply (process_sites _ _ _ _ _ P) | intros h []].
  rewrite Db, Dp in *. rewrite land_ffff0000 by exact Rg. rewrite !land_65535.
  revert Rg. generalize (before f s r) as b. clear. intros b Rg.
  change (b / 65536 * 65536) with (b / 65536 * 2 ^ 16).
  rewrite lor_mul_pow2_small by (change (2 ^ 16) with 65536; lia). change (2 ^ 16) with 65536.
  rewrite Z.add_mod_idemp_l by lia. set (l := (b + a) mod 65536). assert (0 <= l < 65536) by (unfold l; apply Z.mod_pos_bound; lia).
  clearbody l. unfold u32. split; lia.
Qed.

(** The upper half of a pair. *)
Lemma high_half op lo a : 0 <= op < 4294967296 -> 0 <= lo < 4294967296 ->
  let w := hi_word (mkHi 0 a op) lo in
  u32 w / 65536 = op / 65536 /\
  u32 (w mod 65536 * 65536 + sext16 (lo + a)) = u32 (op mod 65536 * 65536 + sext16 lo + a).
Proof.
  intros H1 H2. cbv zeta. unfold hi_word. cbn [h_opcode h_base]. cbv zeta. rewrite !land_65535.
  rewrite land_ffff0000 by exact H1. rewrite shiftl_mul, shiftr_div by lia. change (2 ^ 16) with 65536.
  assert (Lo : s16 (lo mod 65536) = sext16 lo).
  { unfold s16, sext16. cbv zeta. rewrite Z.mod_mod by lia. reflexivity. }
  rewrite Lo. set (full := s32 (op mod 65536 * 65536) + sext16 lo + a).
  assert (Ef : full mod 4294967296 = (op mod 65536 * 65536 + sext16 lo + a) mod 4294967296).
  { unfold full. pose proof (s32_mod (op mod 65536 * 65536)). lia. }
  assert (B : (if Z.land full 32768 =? 0 then 0 else 1) = (full / 32768) mod 2).
  { replace 32768 with (2 ^ 15) by reflexivity. destruct (Z.eqb_spec (Z.land full (2 ^ 15)) 0) as [E | E].
    - apply (f_equal (fun z => Z.testbit z 15)) in E. rewrite Z.land_spec, Z.bits_0, Z.pow2_bits_true, andb_true_r in E by lia.
      rewrite <- Z.testbit_spec'; [rewrite E; reflexivity | lia].
    - rewrite <- Z.testbit_spec' by lia. destruct (Z.testbit full 15) eqn:E'; [reflexivity |]. exfalso. apply E.
      apply Z.bits_inj. intros i. rewrite Z.land_spec, Z.bits_0, Z.pow2_bits_eqb by lia. destruct (Z.eqb_spec 15 i) as [<- | Q]; [rewrite E' |]; auto using andb_false_r. }
  rewrite B. set (top := (full / 65536 + (full / 32768) mod 2) mod 65536).
  change (op / 65536 * 65536) with (op / 65536 * 2 ^ 16). rewrite lor_mul_pow2_small by (change (2 ^ 16) with 65536; unfold top; lia).
  change (2 ^ 16) with 65536.
  assert (Et : 0 <= top < 65536) by (unfold top; lia).
  split; [unfold u32; lia |].
  replace ((op / 65536 * 65536 + top) mod 65536) with top by lia.
  assert (El : sext16 (lo + a) = sext16 full).
  { assert (Em : full mod 65536 = (lo + a) mod 65536); [| unfold sext16; rewrite Em; reflexivity].
    clear - Ef. unfold sext16 in Ef. destruct (lo mod 65536 <? 32768); lia. }
  rewrite El. unfold u32. rewrite <- Ef. unfold top, sext16. clear. destruct (full mod 65536 <? 32768) eqn:E; lia.
Qed.

Lemma hi_opcode d h1 a2 h2 : relocateOpcode Mips R_MIPS_HI16 d h1 = ROk (a2, h2, true) ->
  a2 = [(d_offset d, d_opcode d)] /\ h2 = h1 ++ [mkHi (d_offset d) (d_base d) (d_opcode d)].
Proof.
  intros O. cbn [relocateOpcode] in O. unfold mips_relocate in O. cbv zeta in O.
  change (R_MIPS_HI16 =? R_MIPS_26) with false in O. change (R_MIPS_HI16 =? R_MIPS_32) with false in O.
  change (R_MIPS_HI16 =? R_MIPS_HI16) with true in O. cbv iota in O. apply ok3 in O. destruct O as (<- & <- & _). auto.
Qed.
Lemma lo_opcode d h1 a2 h2 : relocateOpcode Mips R_MIPS_LO16 d h1 = ROk (a2, h2, true) ->
  exists w, (forall h, In h h1 -> h_base h = d_base d) /\ h2 = [] /\
    a2 = map (fun h => (h_offset h, hi_word h (d_opcode d))) h1 ++ [(d_offset d, w)].
Proof.
  intros O. cbn [relocateOpcode] in O. unfold mips_relocate in O. cbv zeta in O.
  change (R_MIPS_LO16 =? R_MIPS_26) with false in O. change (R_MIPS_LO16 =? R_MIPS_32) with false in O.
  change (R_MIPS_LO16 =? R_MIPS_HI16) with false in O. change (R_MIPS_LO16 =? R_MIPS_LO16) with true in O. cbv iota in O.
  apply do_ok in O. destruct O as ([ac ok] & P & O). apply ok3 in O. cbn [fst snd] in O. destruct O as (<- & <- & ->).
  destruct (process_values _ _ _ _ P) as (A & ->). eexists. auto.
Qed.

Lemma hi_word_offset o o' a op lo : hi_word (mkHi o a op) lo = hi_word (mkHi o' a op) lo.
Proof. reflexivity. Qed.

Lemma mips_hi_before labels start fs out f p s x pre hi mid lo post a a' t t' :
  imported Mips labels start fs out f p s x -> se_rels s = pre ++ hi :: mid ++ lo :: post ->
  r_type hi = R_MIPS_HI16 -> r_type lo = R_MIPS_LO16 -> Forall (fun r => r_type r <> R_MIPS_LO16) mid ->
  refers Mips labels f p hi a t -> refers Mips labels f p lo a' t' ->
  a = a' /\ after f out start x hi = u32 (hi_word (mkHi 0 a (before f s hi)) (before f s lo)).
Proof.
  intros Im E Th Tl Fm Rh Rl_.
  assert (Ih : In hi (se_rels s)) by (rewrite E; apply in_elt).
  assert (Il : In lo (se_rels s)) by (rewrite E; apply in_app_iff; right; right; apply in_elt).
  destruct (reference _ _ _ _ _ _ _ _ _ _ _ _ Im Ih Rh) as (d & D & Do & Db & Dp & _).
  destruct (reference _ _ _ _ _ _ _ _ _ _ _ _ Im Il Rl_) as (e & De & Eo & Eb & Ep & _).
  destruct (imported_section _ _ _ _ _ _ _ _ _ Im) as (W & Is & Ix & Ls & Mx & By & data & Rl & _ & Aft).
  pose proof (im_separate _ _ _ _ _ _ _ _ _ Im) as Sep.
  rewrite (Aft hi Ih).
  destruct (section_actions _ _ _ _ _ _ _ _ Sep Mx Rl) as (acts & hs & acts' & R & F & Ap & G).
  rewrite E in R. destruct (relocs_split _ _ _ _ _ _ _ _ _ _ _ _ _ R eq_refl) as (a1 & h1 & d' & a2 & h2 & a3 & R1 & _ & D' & O' & R3 & ->).
  rewrite D in D'. apply ROk_inj in D'. assert (Q : d' = d) by congruence. subst d'. clear D'.
  rewrite Th in O'. apply hi_opcode in O'. destruct O' as (-> & ->).
  destruct (relocs_split _ _ _ _ _ _ _ _ _ _ _ _ _ R3 eq_refl) as (b1 & g1 & e' & b2 & g2 & b3 & M1 & _ & D' & O' & M3 & ->).
  rewrite De in D'. apply ROk_inj in D'. assert (Q : e' = e) by congruence. subst e'. clear D'.
  rewrite Tl in O'. apply lo_opcode in O'. destruct O' as (w & Bs & -> & ->).
  destruct (open_stay _ _ _ _ _ _ _ _ _ _ M1 Fm) as (hx & Eg & Hx).
  set (H := mkHi (d_offset d) (d_base d) (d_opcode d)) in *.
  assert (Eh : h_offset H = r_offset hi + x) by exact Do.
  assert (Ia : a = a').
  { rewrite <- Db, <- Eb. apply (Bs H). rewrite Eg. apply in_app_iff. left. apply in_app_iff. right. left. reflexivity. }
  split; [exact Ia |].
  apply (last_value Mips labels (ef_big f) (ef_symtab f) (p_offsets p) s x data Sep Ls pre hi (mid ++ lo :: post)
           (a1 ++ [(d_offset d, d_opcode d)] ++ b1) ((map (fun h => (h_offset h, hi_word h (d_opcode e))) g1 ++ [(d_offset e, w)]) ++ b3 ++ acts')
           (hi_word (mkHi 0 a (before f s hi)) (before f s lo)) E).
  - rewrite <- Ap. f_equal. repeat rewrite <- app_assoc. reflexivity.
  - intros b I. apply G. repeat rewrite <- app_assoc in I. repeat rewrite <- app_assoc. exact I.
  - exists (h_offset H, hi_word H (d_opcode e)). split; [| exact Eh]. apply in_app_iff. left. apply in_app_iff. left.
    apply in_map_iff. exists H. split; [reflexivity |]. rewrite Eg. apply in_app_iff. left. apply in_app_iff. right. left. reflexivity.
  - destruct (relocs_sites _ _ _ _ _ _ _ _ _ _ _ R1) as (_ & H1). destruct (relocs_sites _ _ _ _ _ _ _ _ _ _ _ M3) as (A3 & H3).
    intros b I Eo'. rewrite <- (site_eq Mips labels (ef_big f) (ef_symtab f) (p_offsets p) s x Sep Mx hi Ih) in Eo'.
    assert (Np : forall r, In r pre \/ In r (mid ++ lo :: post) -> site x r <> site x hi) by (intros r Hr; apply (other_site Mips labels (ef_big f) (ef_symtab f) (p_offsets p) s x Sep Mx pre hi (mid ++ lo :: post) r E Hr)).
    assert (Pst : forall o, from_sites x [] post o -> o <> site x hi).
    { intros o [(h & [] & _) | (r & Ir & Er)]. rewrite <- Er. apply Np. right. apply in_app_iff. right. right. exact Ir. }
    apply in_app_iff in I. destruct I as [I | I].
    + apply in_app_iff in I. destruct I as [I | [<- | []]].
      * apply in_map_iff in I. destruct I as (h & <- & I). cbn [fst snd] in *. rewrite Eg in I. apply in_app_iff in I. destruct I as [I | I].
        -- apply in_app_iff in I. destruct I as [I | [<- | []]].
           ++ exfalso. destruct (H1 h I) as [(h' & [] & _) | (r & Ir & Er)]. apply (Np r); [left; exact Ir | congruence].
           ++ unfold H. rewrite Db, Dp, Ep. reflexivity.
        -- exfalso. destruct (Hx h I) as (r & Ir & Er). apply (Np r); [right; apply in_app_iff; left; exact Ir | congruence].
      * exfalso. cbn [fst] in Eo'. rewrite Eo in Eo'. rewrite <- (site_eq Mips labels (ef_big f) (ef_symtab f) (p_offsets p) s x Sep Mx lo Il) in Eo'.
        apply (Np lo); [right; apply in_elt | exact Eo'].
    + exfalso. apply in_app_iff in I. destruct I as [I | I]; [apply (Pst (fst b)); [apply A3, I | exact Eo'] |].
      assert (Q : exists h, In h hs /\ h_offset h = fst b).
      { cbn [finish] in F. destruct hs as [| h0 hs0]; cbn [mips_finish] in F; [apply ok2 in F; destruct F as (<- & _); destruct I |].
        apply (process_sites _ _ _ _ _ F b I). }
      destruct Q as (h & Ihh & Ehh). apply (Pst (h_offset h)); [apply H3, Ihh | congruence].
Qed.

Lemma mips_pair labels start fs out f p s x pre hi mid lo post a a' t t' :
  imported Mips labels start fs out f p s x -> se_rels s = pre ++ hi :: mid ++ lo :: post ->
  r_type hi = R_MIPS_HI16 -> r_type lo = R_MIPS_LO16 -> Forall (fun r => r_type r <> R_MIPS_LO16) mid ->
  refers Mips labels f p hi a t -> refers Mips labels f p lo a' t' ->
  a = a' /\ after f out start x hi / 65536 = before f s hi / 65536 /\ after f out start x lo / 65536 = before f s lo / 65536 /\
  pair_value (after f out start x hi) (after f out start x lo) = u32 (pair_value (before f s hi) (before f s lo) + a).
Proof.
  intros Im E Th Tl Fm Rh Rl.
  assert (Ih : In hi (se_rels s)) by (rewrite E; apply in_elt).
  assert (Il : In lo (se_rels s)) by (rewrite E; apply in_app_iff; right; right; apply in_elt).
  destruct (mips_hi_before _ _ _ _ _ _ _ _ _ _ _ _ _ _ _ _ _ Im E Th Tl Fm Rh Rl) as (<- & Hh).
  destruct (mips_low _ _ _ _ _ _ _ _ _ _ _ Im Il Rl Tl) as (L1 & L2).
  destruct (reference _ _ _ _ _ _ _ _ _ _ _ _ Im Ih Rh) as (_ & _ & _ & _ & _ & _ & _ & Rg).
  destruct (reference _ _ _ _ _ _ _ _ _ _ _ _ Im Il Rl) as (_ & _ & _ & _ & _ & _ & _ & Rg').
  destruct (high_half _ _ a Rg Rg') as (V1 & V2). cbv zeta in V1, V2. rewrite <- Hh in V1.
  split; [reflexivity |]. split; [exact V1 |]. split; [exact L1 |].
  unfold pair_value. revert V2. rewrite Hh.
  replace (sext16 (after f out start x lo)) with (sext16 (before f s lo + a)) by (unfold sext16; rewrite L2; reflexivity).
  generalize (hi_word (mkHi 0 a (before f s hi)) (before f s lo)) as w. generalize (sext16 (before f s lo + a)) as l'. generalize (sext16 (before f s lo)) as l.
  generalize (before f s hi) as b. clear. intros b l l' w. unfold u32. intros V.
  replace ((w mod 4294967296) mod 65536) with (w mod 65536) by lia. rewrite V, Z.add_mod_idemp_l by lia. reflexivity.
Qed.

(** Without a LO16 after it. *)
Lemma mips_dangling labels start fs out f p s x pre hi post a t :
  imported Mips labels start fs out f p s x -> se_rels s = pre ++ hi :: post ->
  r_type hi = R_MIPS_HI16 -> Forall (fun r => r_type r <> R_MIPS_LO16) post -> refers Mips labels f p hi a t ->
  after f out start x hi / 65536 = before f s hi / 65536 /\
  u32 (after f out start x hi mod 65536 * 65536 + sext16 a) = u32 (before f s hi mod 65536 * 65536 + a).
Proof.
  intros Im E Th Fm Rh.
  assert (Ih : In hi (se_rels s)) by (rewrite E; apply in_elt).
  destruct (reference _ _ _ _ _ _ _ _ _ _ _ _ Im Ih Rh) as (d & D & Do & Db & Dp & _ & _ & Rg).
  destruct (imported_section _ _ _ _ _ _ _ _ _ Im) as (W & Is & Ix & Ls & Mx & By & data & Rl & _ & Aft).
  pose proof (im_separate _ _ _ _ _ _ _ _ _ Im) as Sep.
  rewrite (Aft hi Ih).
  destruct (section_actions _ _ _ _ _ _ _ _ Sep Mx Rl) as (acts & hs & acts' & R & F & Ap & G).
  rewrite E in R. destruct (relocs_split _ _ _ _ _ _ _ _ _ _ _ _ _ R eq_refl) as (a1 & h1 & d' & a2 & h2 & a3 & R1 & _ & D' & O' & R3 & ->).
  rewrite D in D'. apply ROk_inj in D'. assert (Q : d' = d) by congruence. subst d'. clear D'.
  rewrite Th in O'. apply hi_opcode in O'. destruct O' as (-> & ->).
  destruct (open_stay _ _ _ _ _ _ _ _ _ _ R3 Fm) as (hx & Eg & Hx).
  set (H := mkHi (d_offset d) (d_base d) (d_opcode d)) in *.
  assert (Eh : h_offset H = r_offset hi + x) by exact Do.
  assert (Ea : acts' = map (fun h => (h_offset h, hi_word h 0)) hs).
  { cbn [finish] in F. destruct hs as [| h0 hs0]; cbn [mips_finish] in F; [apply ok2 in F; destruct F as (<- & _); reflexivity |].
    apply (process_values _ _ _ _ F). }
  assert (V : word_at (ef_big f) data (r_offset hi) = u32 (hi_word (mkHi 0 a (before f s hi)) 0)).
  { apply (last_value Mips labels (ef_big f) (ef_symtab f) (p_offsets p) s x data Sep Ls pre hi post (a1 ++ [(d_offset d, d_opcode d)] ++ a3) acts' _ E).
    - exact Ap.
    - exact G.
    - exists (h_offset H, hi_word H 0). split; [| exact Eh]. rewrite Ea. apply in_map_iff. exists H. split; [reflexivity |]. rewrite Eg.
      apply in_app_iff. left. apply in_app_iff. right. left. reflexivity.
    - destruct (relocs_sites _ _ _ _ _ _ _ _ _ _ _ R1) as (_ & H1).
      intros b I Eo'. rewrite <- (site_eq Mips labels (ef_big f) (ef_symtab f) (p_offsets p) s x Sep Mx hi Ih) in Eo'.
      assert (Np : forall r, In r pre \/ In r post -> site x r <> site x hi) by (intros r Hr; apply (other_site Mips labels (ef_big f) (ef_symtab f) (p_offsets p) s x Sep Mx pre hi post r E Hr)).
      rewrite Ea in I. apply in_map_iff in I. destruct I as (h & <- & I). cbn [fst snd] in *. rewrite Eg in I. apply in_app_iff in I. destruct I as [I | I].
      + apply in_app_iff in I. destruct I as [I | [<- | []]].
        * exfalso. destruct (H1 h I) as [(h' & [] & _) | (r & Ir & Er)]. apply (Np r); [left; exact Ir | congruence].
        * unfold H. rewrite Db, Dp. reflexivity.
      + exfalso. destruct (Hx h I) as (r & Ir & Er). apply (Np r); [right; exact Ir | congruence]. }
  rewrite V. destruct (high_half (before f s hi) 0 a Rg ltac:(lia)) as (V1 & V2). cbv zeta in V1, V2. split; [exact V1 |].
  revert V2. cbn [sext16]. rewrite Z.add_0_l. change (sext16 0) with 0. rewrite Z.add_0_r.
  generalize (hi_word (mkHi 0 a (before f s hi)) 0) as w. intros w V2. rewrite <- V2. f_equal. f_equal. f_equal. unfold u32. clear. lia.
Qed.

Lemma mips_jump_to labels start fs out f p s x r a t : imported Mips labels start fs out f p s x ->
  In r (se_rels s) -> refers Mips labels f p r a t -> r_type r = R_MIPS_26 ->
  after f out start x r / 67108864 = before f s r / 67108864 /\
  (a mod 4 = 0 -> (a + before f s r mod 67108864 * 4) / 268435456 = (x + r_offset r + 4) / 268435456 ->
   jump_to (x + r_offset r) (after f out start x r) = a + before f s r mod 67108864 * 4).
Proof.
  intros Im I Rf T. destruct (mips_jump _ _ _ _ _ _ _ _ _ _ _ Im I Rf T) as (A & B). split; [exact A |].
  intros M R. unfold jump_to. rewrite B, <- R. clear - M. set (k := before f s r mod 67108864). clearbody k.
  replace ((k + a / 4) mod 67108864 * 4) with ((a + k * 4) mod 268435456); [lia |]. replace (a + k * 4) with ((k + a / 4) * 4) by lia.
  change 268435456 with (67108864 * 4). apply Z.mul_mod_distr_r; lia.
Qed.

Lemma imported_bytes m labels start fs out f p s x : imported m labels start fs out f p s x ->
  forall k, 0 <= k < se_size s -> (forall r, In r (se_rels s) -> k < r_offset r \/ r_offset r + 4 <= k) ->
  byte_at out (x - start + k) = byte_at (se_data s) k.
Proof.
  intros Im k Hk O. destruct (imported_section _ _ _ _ _ _ _ _ _ Im) as (W & Is & Ix & Ls & Mx & By & data & Rl & B & _).
  rewrite (B k Hk). eapply other_bytes; [exact (im_separate _ _ _ _ _ _ _ _ _ Im) | exact Ls | exact Mx | exact Rl | lia | exact O].
Qed.
