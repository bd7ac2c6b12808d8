(** Sound PlayStation objects are linked. *)

Require Import ZArith Lia Bool String List Permutation.
Require Import ZifyBool.
Require Import Verif.Ints Verif.IntsLemmas Verif.Res Verif.ElfModel Verif.ElfSpec Verif.ElfProofs.
Require Import Verif.PsxModel Verif.PsxReadProofs Verif.PsxLinkSpec Verif.PsxLinkProofs Verif.PsxWordProofs Verif.PsxImportProofs.
Import ListNotations.
Local Open Scope Z_scope.

(** ** Sorting *)

Definition le_rel (a b : prel) : Prop := less (tie b) (tie a) = false.
Ltac unless := unfold le_rel, tie, less in *; repeat match goal with
  | H : context [if ?a <? ?b then _ else _] |- _ => destruct (Z.ltb_spec a b); try discriminate H
  | |- context [if ?a <? ?b then _ else _] => destruct (Z.ltb_spec a b)
  end; try reflexivity; try discriminate; try lia.
Lemma le_rel_trans a b c : le_rel a b -> le_rel b c -> le_rel a c.
Proof. intros H1 H2. unless. Qed.
Lemma le_rel_total a b : less (tie a) (tie b) = true -> le_rel a b.
Proof. intros H. unless. Qed.
Lemma insert_perm r l : Permutation (insert_rel r l) (r :: l).
Proof.
  induction l as [| x l IH]; cbn [insert_rel]; [apply Permutation_refl |]. destruct (less (tie x) (tie r)); [| apply Permutation_refl].
  eapply Permutation_trans; [apply perm_skip, IH | apply perm_swap].
Qed.
Lemma sort_perm l : Permutation (stable_sort l) l.
Proof. induction l as [| r l IH]; cbn [stable_sort]; [constructor |]. eapply Permutation_trans; [apply insert_perm | apply perm_skip, IH]. Qed.
Lemma insert_sorted r l : ForallOrdPairs le_rel l -> ForallOrdPairs le_rel (insert_rel r l).
Proof.
  intros F. induction F as [| x l H F IH]; cbn [insert_rel]; [repeat constructor |]. destruct (less (tie x) (tie r)) eqn:E.
  - constructor; [| exact IH]. apply Forall_forall. intros y I. apply (Permutation_in _ (insert_perm r l)) in I. destruct I as [<- | I]; [apply le_rel_total, E |].
    rewrite Forall_forall in H. apply H, I.
  - constructor; [| constructor; assumption]. constructor; [exact E |]. apply Forall_forall. intros y I. rewrite Forall_forall in H. apply (le_rel_trans r x y E (H y I)).
Qed.
Lemma sort_sorted l : ForallOrdPairs le_rel (stable_sort l).
Proof. induction l as [| r l IH]; cbn [stable_sort]; [constructor | apply insert_sorted, IH]. Qed.
Lemma sort_in l r : In r (stable_sort l) <-> In r l.
Proof. split; apply Permutation_in; [| apply Permutation_sym]; apply sort_perm. Qed.
Lemma pairs_perm {A} (R : A -> A -> Prop) l l' : (forall x y, R x y -> R y x) -> Permutation l l' -> ForallOrdPairs R l -> ForallOrdPairs R l'.
Proof.
  intros S P. induction P as [| x l l' P IH | x y l | l1 l2 l3 P1 IH1 P2 IH2]; intros F; auto.
  - inversion F as [| ? ? F1 F2]; subst. constructor; [| apply IH, F2]. eapply Permutation_Forall; eassumption.
  - inversion F as [| ? ? F1 F2]; subst. inversion F2 as [| ? ? F3 F4]; subst. inversion F1 as [| ? ? F5 F6]; subst.
    constructor; [constructor; [apply S, F5 | exact F3] | constructor; [exact F6 | exact F4]].
Qed.
Lemma sandwich h r l : le_rel h r -> le_rel r l -> same_group h l -> same_group h r.
Proof.
  intros H1 H2 (E1 & E2 & E3). assert (E1' : rref_rank (pr_ref h) = rref_rank (pr_ref l)) by congruence.
  assert (Q : rref_rank (pr_ref r) = rref_rank (pr_ref h) /\ pr_id r = pr_id h /\ pr_pos r = pr_pos h) by unless.
  destruct Q as (Q1 & Q2 & Q3). split; [| split; congruence]. destruct (pr_ref h), (pr_ref r); try reflexivity; discriminate Q1.
Qed.
Lemma low_after h l : le_rel l h -> same_group h l -> pr_type h = UpperImmediate -> pr_type l = LowerImmediate -> False.
Proof.
  intros H (E1 & E2 & E3) Kh Kl. unfold le_rel, tie in H. rewrite E1, E2, E3, Kh, Kl in H. unfold less in H. rewrite !Z.ltb_irrefl in H. discriminate H.
Qed.

(** ** One segment *)

Section Segment.
Variables (offsets symbols : imap) (data : list Z) (all : list prel).
Hypothesis Hone : one_address all.
Hypothesis Hin : Forall (fun r => 0 <= pr_offset r /\ pr_offset r + 4 <= size data) all.
Hypothesis Htarget : forall r, In r all -> exists t, target offsets symbols r = ROk t.
Hypothesis Hempty : forall r, In r all -> pr_type r = LowerImmediate -> word_at false data (pr_offset r) mod 65536 = 0.
Hypothesis Hbytes : Forall is_byte data.

Lemma get_inside o : 0 <= o -> o + 4 <= size data -> getDoubleWord false data o = ROk (word_at false data o).
Proof. intros H1 H2. apply get_word. unfold inside, size in *. lia. Qed.

Lemma process_ok hs op base : (forall h, In h hs -> h_base h = base) -> op mod 65536 = 0 -> exists acts, processHi16Entries hs op base = ROk (acts, true) /\ (forall b, In b acts -> exists h, In h hs /\ fst b = h_offset h).
Proof.
  intros H E. induction hs as [| h hs IH]; cbn [processHi16Entries]; [exists []; split; [reflexivity | intros b []] |].
  rewrite (H h (or_introl eq_refl)), Z.eqb_refl. cbn [negb]. cbv zeta. rewrite !land_65535, E. change (s16 0) with 0. rewrite Z.add_0_r. rewrite (s32_small (s32 _)) by (pose proof (s32_range (Z.shiftl (h_opcode h mod 65536) 16)); lia). rewrite Z.eqb_refl. cbn [negb].
  destruct IH as (acts & A & B); [intros g I; apply H; right; exact I |]. rewrite A. cbn [rbind fst snd]. eexists. split; [reflexivity |].
  intros b [<- | I]; [exists h; split; [left |]; reflexivity |]. destruct (B b I) as (g & I' & Eg). exists g. split; [right |]; assumption.
Qed.

(** The open upper halves are for one address, and their lower half is still to come. *)
Definition open_ok (hs : list hi16) (rs : list prel) : Prop :=
  hs = [] \/ exists u l t, In u all /\ pr_type u = UpperImmediate /\ In l rs /\ pr_type l = LowerImmediate /\ same_group u l /\
    target offsets symbols u = ROk t /\ (forall h, In h hs -> h_base h = t) /\ Forall (le_rel u) rs.

Lemma group_target u r t : In u all -> In r all -> is_half u -> is_half r -> same_group u r -> target offsets symbols u = ROk t -> target offsets symbols r = ROk t.
Proof.
  intros I1 I2 H1 H2 G T. pose proof (Hone u r I1 I2 H1 H2 G) as E. destruct G as (G1 & G2 & G3). unfold target in *. rewrite <- G1, <- G2, <- G3, <- E. exact T.
Qed.

Lemma relocations_ok rs : forall hs, (forall r, In r rs -> In r all) -> ForallOrdPairs le_rel rs ->
  (forall r, In r rs -> pr_type r = UpperImmediate -> exists l, In l rs /\ pr_type l = LowerImmediate /\ same_group r l) ->
  open_ok hs rs -> (forall h, In h hs -> 0 <= h_offset h) ->
  exists acts, psx_relocations offsets symbols data hs rs = ROk (acts, [], true) /\ (forall b, In b acts -> 0 <= fst b).
Proof.
  induction rs as [| r rs IH]; intros hs Hall Hs Hl Ho Hh; cbn [psx_relocations].
  - destruct Ho as [-> | (u & l & t & _ & _ & [] & _)]. exists []. split; [reflexivity | intros b []].
  - assert (Ir : In r all) by (apply Hall; left; reflexivity). pose proof Hin as Fi. rewrite Forall_forall in Fi. destruct (Fi r Ir) as (O1 & O2).
    rewrite (get_inside _ O1 O2). cbn [rbind]. destruct (Htarget r Ir) as (t & T). rewrite T. cbn [rbind]. inversion Hs as [| ? ? Hs1 Hs2]; subst.
    assert (Hall' : forall q, In q rs -> In q all) by (intros q I; apply Hall; right; exact I).
    assert (Hl' : forall q, In q rs -> pr_type q = UpperImmediate -> exists l, In l rs /\ pr_type l = LowerImmediate /\ same_group q l).
    { intros q Iq Kq. destruct (Hl q (or_intror Iq) Kq) as (l & [<- | Il] & Kl & Gl); [exfalso | exists l; auto].
      rewrite Forall_forall in Hs1. apply (low_after q r (Hs1 q Iq) Gl Kq Kl). }
    assert (Simple : forall acts, (forall b, In b acts -> 0 <= fst b) -> (pr_type r = WordLiteral \/ pr_type r = FunctionCall) -> exists acts',
       (do x <- psx_relocations offsets symbols data hs rs; let '(acts', hs, ok') := x in ROk (acts ++ acts', hs, true && ok')) = ROk (acts', [], true) /\ (forall b, In b acts' -> 0 <= fst b)).
    { intros acts Ha K. destruct (IH hs Hall' Hs2 Hl') as (acts' & R & Ha'); [| exact Hh |].
      - destruct Ho as [Ho | (u & l & t' & A1 & A2 & A3 & A4 & A5 & A6 & A7 & A8)]; [left; exact Ho |]. right. exists u, l, t'. inversion A8; subst.
        assert (A3' : In l rs) by (destruct A3 as [<- | A3]; [exfalso; destruct K; congruence | exact A3]). auto 10.
      - rewrite R. cbn [rbind andb]. eexists. split; [reflexivity |]. intros b I. apply in_app_iff in I. destruct I as [I | I]; [apply Ha, I | apply Ha', I]. }
    unfold mips_relocate. cbn [d_opcode d_offset d_base]. destruct (pr_type r) eqn:K; cbn [elf_type].
    + change (R_MIPS_32 =? R_MIPS_26) with false. change (R_MIPS_32 =? R_MIPS_32) with true. cbv iota zeta. cbn [rbind].
      apply Simple; [intros b [<- | []]; exact O1 | auto].
    + change (R_MIPS_HI16 =? R_MIPS_26) with false. change (R_MIPS_HI16 =? R_MIPS_32) with false. change (R_MIPS_HI16 =? R_MIPS_HI16) with true. cbv iota zeta. cbn [rbind].
      destruct (Hl r (or_introl eq_refl) K) as (l & [<- | Il] & Kl & Gl); [congruence |].
      destruct (IH (hs ++ [mkHi (pr_offset r) t (word_at false data (pr_offset r))]) Hall' Hs2 Hl') as (acts' & R & Ha').
      * right. exists r, l, t. split; [exact Ir |]. split; [exact K |]. split; [exact Il |]. split; [exact Kl |]. split; [exact Gl |]. split; [exact T |]. split; [| exact Hs1].
        intros h I. apply in_app_iff in I. destruct I as [I | [<- | []]]; [| reflexivity].
        destruct Ho as [-> | (u & l' & t' & A1 & A2 & A3 & A4 & A5 & A6 & A7 & A8)]; [destruct I |]. rewrite (A7 h I).
        inversion A8 as [| ? ? A9 A10]; subst. destruct A3 as [<- | A3]; [congruence |].
        assert (Gr : same_group u r) by (apply (sandwich u r l' A9); [rewrite Forall_forall in Hs1; apply (Hs1 l' A3) | exact A5]).
        pose proof (group_target u r t' A1 Ir (or_introl A2) (or_introl K) Gr A6) as T'. rewrite T in T'. apply ROk_inj in T'. congruence.
      * intros h I. apply in_app_iff in I. destruct I as [I | [<- | []]]; [apply Hh, I | exact O1].
      * rewrite R. cbn [rbind andb]. eexists. split; [reflexivity |]. intros b I. apply in_app_iff in I. destruct I as [[<- | []] | I]; [exact O1 | apply Ha', I].
    + change (R_MIPS_LO16 =? R_MIPS_26) with false. change (R_MIPS_LO16 =? R_MIPS_32) with false. change (R_MIPS_LO16 =? R_MIPS_HI16) with false. change (R_MIPS_LO16 =? R_MIPS_LO16) with true. cbv iota zeta.
      destruct (process_ok hs (word_at false data (pr_offset r)) t) as (acts & P & Q); [| apply Hempty; [exact Ir | exact K] |].
      { intros h I. destruct Ho as [-> | (u & l' & t' & A1 & A2 & A3 & A4 & A5 & A6 & A7 & A8)]; [destruct I |]. rewrite (A7 h I).
        inversion A8 as [| ? ? A9 A10]; subst.
        assert (Gr : same_group u r). { destruct A3 as [<- | A3]; [exact A5 |]. apply (sandwich u r l' A9); [rewrite Forall_forall in Hs1; apply (Hs1 l' A3) | exact A5]. }
        pose proof (group_target u r t' A1 Ir (or_introl A2) (or_intror K) Gr A6) as T'. rewrite T in T'. apply ROk_inj in T'. congruence. }
      rewrite P. cbn [rbind fst snd]. destruct (IH [] Hall' Hs2 Hl' (or_introl eq_refl)) as (acts' & R & Ha'); [intros h [] |].
      rewrite R. cbn [rbind andb]. eexists. split; [reflexivity |]. intros b I. repeat (apply in_app_iff in I; destruct I as [I | I]); [| destruct I as [<- | []]; exact O1 | apply Ha', I].
      destruct (Q b I) as (h & Ih & ->). apply Hh, Ih.
    + change (R_MIPS_26 =? R_MIPS_26) with true. cbv iota zeta. cbn [rbind]. apply Simple; [intros b [<- | []]; exact O1 | auto].
Qed.

Lemma apply_ok acts : forall d, (forall b, In b acts -> 0 <= fst b) -> exists d', apply_actions false d 0 acts = ROk d'.
Proof.
  induction acts as [| [o w] acts IH]; intros d H; cbn [apply_actions]; [eauto |]. pose proof (H _ (or_introl eq_refl)) as Ho. cbn [fst] in Ho. rewrite Z.sub_0_r.
  assert (R : exists d1, replaceDoubleWord false d o w = ROk d1). { unfold replaceDoubleWord. destruct ((o <? -3) || (o + 3 >=? Z.of_nat (length d))); [eauto |]. destruct (o <? 0) eqn:E; [lia | eauto]. }
  destruct R as (d1 & ->). cbn [rbind]. apply IH. intros b I. apply H. right. exact I.
Qed.
End Segment.

Lemma segment_accepted offsets symbols s : fine_segment s -> ForallOrdPairs le_rel (sg_rels s) -> one_address (sg_rels s) -> each_has_low (sg_rels s) -> empty_halves s ->
  (forall r, In r (sg_rels s) -> exists t, target offsets symbols r = ROk t) -> exists data, psx_segment offsets symbols s = ROk (data, true).
Proof.
  intros F So On El Em Tg. unfold psx_segment.
  destruct (relocations_ok offsets symbols (sg_data s) (sg_rels s) On (fs_inside _ F) Tg Em (sg_rels s) []) as (acts & R & Ha); auto.
  - intros r I K. destruct (El r I K) as (l & A & B & C & _). exists l. auto.
  - left. reflexivity.
  - intros h [].
  - rewrite R. cbn [rbind mips_finish fst snd]. rewrite app_nil_r. destruct (apply_ok acts (sg_data s) Ha) as (d & ->). cbn [rbind andb]. eauto.
Qed.

(** ** All files *)

Lemma add_int_fits a b : is_int32 (a + b) -> add_int a b = ROk (a + b).
Proof. intros H. unfold add_int, is_int32 in *. rewrite s32_small by lia. rewrite Z.eqb_refl. reflexivity. Qed.
Lemma round_up_fits a : -2147483648 <= a -> ceil4 a < 2147483648 -> round_up a = ROk (ceil4 a).
Proof.
  intros H1 H2. unfold round_up. destruct (align_up_total a 4 ltac:(lia)) as (b & B). rewrite B. cbn [rbind]. pose proof (align_up_spec a 4 b ltac:(lia) B) as Sp.
  pose proof (ceil4_spec a) as Sc. assert (b = ceil4 a) by (Z.div_mod_to_equations; lia). subst b. rewrite <- (Z.add_0_r (ceil4 a)) at 2. apply add_int_fits. unfold is_int32. lia.
Qed.
Lemma place_segments_fits ss : forall m a, Forall fine_segment ss -> -2147483648 <= a -> behind a (sizes_of ss) < 2147483648 ->
  place_segments m a ss = ROk (rev (combine (map sg_id ss) (stack a (sizes_of ss))) ++ m, behind a (sizes_of ss)).
Proof.
  induction ss as [| s ss IH]; intros m a F H1 H2; [reflexivity |]. cbn [place_segments sizes_of map stack behind combine rev] in *. inversion F as [| ? ? F1 F2]; subst.
  fold (sizes_of ss) in *. pose proof (behind_low (sizes_of ss) (ceil4 (a + size (sg_data s))) (sizes_nonneg ss)) as Lw. pose proof (ceil4_spec (a + size (sg_data s))) as Sc.
  pose proof (size_nonneg (sg_data s)) as Sz. pose proof (fs_size _ F1) as Sm. rewrite s32_small by lia.
  rewrite add_int_fits by (unfold is_int32; lia). cbn [rbind]. rewrite round_up_fits by lia. cbn [rbind]. rewrite IH by (assumption || lia). rewrite <- app_assoc. reflexivity.
Qed.

Lemma place_psymbols_fits L offsets ys : forall l,
  (forall y v, In (y, v) (walk offsets (lk_address l) ys) -> L (lower (ps_name y)) = Some v /\ is_int32 v) ->
  (forall y, In y ys -> is_external y = true -> exists v, L (lower (ps_name y)) = Some v) ->
  Forall (fun n => 0 <= n) (flat_map area_size ys) -> -2147483648 <= lk_address l -> behind (lk_address l) (flat_map area_size ys) < 2147483648 ->
  (forall n, lk_labels l n = L n) ->
  exists l', place_psymbols offsets l ys = ROk l' /\ lk_ok l' = lk_ok l /\ (forall n, lk_labels l' n = L n).
Proof.
  induction ys as [| y ys IH]; intros l Hw He Ha H1 H2 Hl; [exists l; auto |]. cbn [place_psymbols walk flat_map] in *.
  assert (He' : forall z, In z ys -> is_external z = true -> exists v, L (lower (ps_name z)) = Some v) by (intros z I; apply He; right; exact I).
  assert (S : forall v, L (lower (ps_name y)) = Some v -> forall n, set_label (lk_labels l) (ps_name y) v n = L n).
  { intros v E n. unfold set_label. destruct (list_eq_dec Z.eq_dec n (lower (ps_name y))) as [-> |]; [symmetry; exact E | apply Hl]. }
  Ltac next_symbol := match goal with IH : forall l, _ |- context [place_psymbols ?o ?X ?ys] =>
    let l' := fresh "l'" in destruct (IH X) as (l' & ? & ? & ?); cbn [lk_address lk_labels lk_ok] in *; try assumption; [.. | exists l'; auto] end.
  destruct (ps_kind y) eqn:K; unfold area_size in Ha, H2; rewrite K in Ha, H2; fold area_size in Ha, H2; cbn [app behind] in Ha, H2.
  - destruct (Hw y _ (or_introl eq_refl)) as (E & R). rewrite add_int_fits by exact R. cbn [rbind]. next_symbol; [intros z v I; apply (Hw z v); right; exact I | apply S, E].
  - destruct (Hw y _ (or_introl eq_refl)) as (E & R). rewrite add_int_fits by exact R. cbn [rbind]. next_symbol; [intros z v I; apply (Hw z v); right; exact I | apply S, E].
  - destruct (He y (or_introl eq_refl)) as (v & E); [unfold is_external; rewrite K; reflexivity |]. rewrite Hl, E. next_symbol.
  - inversion Ha as [| ? ? Ha1 Ha2]; subst. destruct (Hw y _ (or_introl eq_refl)) as (E & R). unfold is_int32 in R.
    pose proof (behind_low _ (ceil4 (lk_address l + space)) Ha2) as Lw. pose proof (ceil4_spec (lk_address l + space)) as Sc.
    rewrite add_int_fits by (unfold is_int32; lia). cbn [rbind]. rewrite round_up_fits by lia. cbn [rbind].
    next_symbol; [intros z v I; apply (Hw z v); right; exact I | lia | apply S, E].
  - destruct (Hw y _ (or_introl eq_refl)) as (E & R). rewrite add_int_fits by exact R. cbn [rbind]. next_symbol; [intros z v I; apply (Hw z v); right; exact I | apply S, E].
Qed.

Lemma load_segments_fits offsets symbols ds start ss : forall out,
  (forall s, In s ss -> (exists data, psx_segment offsets symbols s = ROk (data, true)) /\ 0 <= ds + at_key offsets (sg_id s) - start /\
     ds + at_key offsets (sg_id s) - start + size (sg_data s) <= size out) ->
  exists out', load_segments offsets symbols out ds start ss = ROk (out', true).
Proof.
  induction ss as [| s ss IH]; intros out H; cbn [load_segments]; [eauto |]. destruct (H s (or_introl eq_refl)) as ((data & D) & A & B).
  rewrite D. cbn [rbind fst snd]. pose proof (psx_segment_length _ _ _ _ D) as Ln. cbn [fst] in Ln.
  destruct (copy_to out (ds + at_key offsets (sg_id s) - start) data) as [o | |] eqn:C.
  2, 3: unfold copy_to in C; unfold size in *; rewrite Ln in C; destruct ((ds + at_key offsets (sg_id s) - start <? 0) || (Z.of_nat (length out) <? ds + at_key offsets (sg_id s) - start + Z.of_nat (length (sg_data s)))) eqn:E; [lia | discriminate].
  cbn [rbind]. destruct (copy_spec _ _ _ _ C) as (L & _). destruct (IH o) as (o' & O).
  { intros s' I. unfold size. rewrite L. apply H. right. exact I. }
  rewrite O. cbn [rbind fst snd andb]. eauto.
Qed.

Lemma range_target labels f a r : fine_file f -> in_range f a labels r -> exists t, target (offsets_at f a) (numbers_of labels f a) r = ROk t.
Proof.
  intros F R. unfold target. destruct R as [s x K X Ei R1 R2 | y v K Iy Ei Sy R | y v K Iy Ky L R]; rewrite K.
  - rewrite <- Ei, (offsets_found f a s x (ff_ids _ F) X). rewrite add_int_fits by exact R1. cbn [rbind]. rewrite add_int_fits by exact R2. eauto.
  - rewrite (numbers_found labels f a (pr_id r) v F); [rewrite add_int_fits by exact R; eauto |].
    apply (walk_numbered _ _ _ _ y); [apply symbol_walk; [apply (ff_ids _ F) | exact Iy | exact Sy] | exact Ei].
  - rewrite (numbers_found labels f a (pr_id r) (s32 v) F); [| apply (external_numbered _ _ _ y); assumption]. rewrite add_int_fits by exact R. eauto.
Qed.

Lemma walk_symbol offsets ys : forall a y v, In (y, v) (walk offsets a ys) -> In y ys /\ is_external y = false.
Proof.
  induction ys as [| z ys IH]; intros a y v; cbn [walk]; [intros [] |]. destruct (ps_kind z) eqn:K.
  3: { intros I. destruct (IH _ _ _ I). split; [right |]; assumption. }
  all: intros [E | I]; [inversion E; subst; split; [left; reflexivity | unfold is_external; rewrite K; reflexivity] | destruct (IH _ _ _ I); split; [right |]; assumption].
Qed.
Lemma walk_areas_inv offsets ys : forall a y v, In (y, v) (walk offsets a ys) -> is_area y = true -> In (y, v) (combine (filter is_area ys) (stack a (flat_map area_size ys))).
Proof.
  induction ys as [| z ys IH]; intros a y v; cbn [walk filter flat_map]; [intros [] |]. unfold is_area at 2, area_size at 1. destruct (ps_kind z) eqn:K; cbn [app].
  1, 2, 5: intros [E | I] Ar; [inversion E; subst; unfold is_area in Ar; rewrite K in Ar; discriminate | apply (IH _ _ _ I Ar)].
  - intros I Ar. apply (IH _ _ _ I Ar). - cbn [stack combine]. intros [E | I] Ar; [left; exact E | right; apply (IH _ _ _ I Ar)].
Qed.
Lemma walk_value offsets ys : forall a y v seg off, In (y, v) (walk offsets a ys) ->
  ps_kind y = Internal seg off \/ ps_kind y = Function_ seg off \/ (exists id, ps_kind y = InternalID id seg off) -> v = at_key offsets seg + off.
Proof.
  induction ys as [| z ys IH]; intros a y v seg off; cbn [walk]; [intros [] |]. destruct (ps_kind z) eqn:K.
  3: apply IH.
  all: intros [E | I] Q; [inversion E; subst; rewrite K in Q; destruct Q as [Q | [Q | (id' & Q)]]; inversion Q; subst; reflexivity | apply (IH _ _ _ _ _ I Q)].
Qed.
Lemma walk_sound labels f a y v : sound labels f a -> In (y, v) (walk_of f a) -> labels (lower (ps_name y)) = Some v /\ is_int32 v.
Proof.
  intros So W. destruct (walk_symbol _ _ _ _ _ W) as (Iy & Ey). pose proof (ff_ids _ (so_fine _ _ _ So)) as Nd. apply (so_symbols _ _ _ So y v Iy).
  destruct (is_area y) eqn:Ar; [apply at_area; apply (walk_areas_inv _ _ _ _ _ W Ar) |].
  destruct (so_defined _ _ _ So y Iy Ey) as (v' & Sy). replace v with v'; [exact Sy |].
  destruct Sy as [seg off s x K P E | seg off s x K P E | id seg off s x K P E | x P].
  1-3: rewrite (walk_value _ _ _ _ _ seg off W), <- E, (offsets_found f a s x Nd P); [reflexivity | rewrite K; eauto].
  apply in_combine_l in P. apply filter_In in P. destruct P. congruence.
Qed.

Definition arranged (f : pfile) : Prop := forall s, In s (pf_segments f) -> ForallOrdPairs le_rel (sg_rels s) /\ one_address (sg_rels s).
Lemma file_accepted labels labels' out f a : (forall n, labels' n = labels n) -> sound labels f a -> arranged f -> -2147483648 <= a -> behind a (file_sizes f) < 2147483648 ->
  exists p, psx_file labels' out a f = ROk p /\ pt_ok p = true /\ (forall n, pt_labels p n = labels n).
Proof.
  intros El So Ar H1 H2. pose proof (so_fine _ _ _ So) as F. unfold file_sizes in H2. rewrite behind_app in H2.
  pose proof (behind_low _ (behind a (segment_sizes f)) (ff_areas _ F)) as Lw. pose proof (behind_low (segment_sizes f) a (sizes_nonneg _)) as Lw'.
  unfold psx_file. rewrite (place_segments_fits _ _ _ (ff_segments _ F) H1) by (change (sizes_of (pf_segments f)) with (segment_sizes f); lia).
  change (sizes_of (pf_segments f)) with (segment_sizes f). rewrite app_nil_r. fold (offsets_at f a). cbn [rbind fst snd].
  destruct (place_psymbols_fits labels (offsets_at f a) (pf_symbols f) (mkLinked labels' [] (behind a (segment_sizes f)) true)) as (l & Y & Ok & Ll); cbn [lk_address lk_labels lk_ok] in *.
  - intros y v W. apply (walk_sound labels f a y v So W).
  - apply (so_external _ _ _ So).
  - apply (ff_areas _ F).
  - lia.
  - exact H2.
  - exact El.
  - rewrite Y. cbn [rbind]. rewrite Ok. destruct (place_psymbols_ok _ _ _ _ Y) as (Ad & _). cbn [lk_address] in Ad. fold (area_sizes f) in Ad.
    pose proof (place_psymbols_numbers labels _ _ _ _ Y Ok El (fun y v W => proj1 (walk_sound labels f a y v So W))) as Nm. cbn [lk_symbols lk_address] in Nm. rewrite app_nil_r in Nm.
    change (lk_symbols l = numbers_of labels f a) in Nm. rewrite Nm, Ad. unfold reserve. destruct (behind (behind a (segment_sizes f)) (area_sizes f) - a <? 0) eqn:E; [lia |]. cbn [rbind].
    destruct (load_segments_fits (offsets_at f a) (numbers_of labels f a) (size out) a (pf_segments f) (out ++ repeat 0 (Z.to_nat (behind (behind a (segment_sizes f)) (area_sizes f) - a)))) as (o & O).
    + intros s I. destruct (Ar s I) as (A1 & A2). destruct (so_halves _ _ _ So s I) as (A3 & A4). split.
      * apply segment_accepted; try assumption; [pose proof (ff_segments _ F) as Fs; rewrite Forall_forall in Fs; apply Fs, I |].
        intros r Ir. apply range_target; [exact F | apply (so_range _ _ _ So s r I Ir)].
      * destruct (segment_place f a s I) as (x & X). rewrite (offsets_found f a s x (ff_ids _ F) X).
        assert (X' : In (size (sg_data s), x) (combine (segment_sizes f) (stack a (segment_sizes f)))).
        { unfold segment_sizes at 1. rewrite map_combine_l. apply in_map_iff. exists (s, x). split; [reflexivity | exact X]. }
        destruct (stack_bounds _ _ (sizes_nonneg _) _ _ X') as (Y1 & Y2). change (sizes_of (pf_segments f)) with (segment_sizes f) in Y2.
        unfold size in *. rewrite app_length, repeat_length. lia.
    + rewrite O. cbn [rbind fst snd]. eexists. split; [reflexivity |]. split; [reflexivity | exact Ll].
Qed.
Lemma files_accepted fs labels : forall labels' out a, (forall n, labels' n = labels n) -> (forall f b, In (f, b) (files_at a fs) -> sound labels f b) -> Forall arranged fs ->
  -2147483648 <= a -> files_end a fs < 2147483648 -> exists r, psx_files labels' out a fs = ROk r /\ pt_ok r = true /\ (forall n, pt_labels r n = labels n).
Proof.
  induction fs as [| f fs IH]; intros labels' out a El So Ar H1 H2; cbn [psx_files files_at files_end] in *; [eexists; split; [reflexivity | split; [reflexivity | exact El]] |].
  inversion Ar as [| ? ? Ar1 Ar2]; subst. pose proof (So f a (or_introl eq_refl)) as So1.
  assert (Ff : Forall fine_file fs). { apply Forall_forall. intros g I. assert (exists b, In (g, b) (files_at (behind a (file_sizes f)) fs)) as (b & B); [| apply (so_fine _ _ _ (So g b (or_intror B)))].
    clear - I. revert I. generalize (behind a (file_sizes f)) as c. induction fs as [| h fs IH]; intros c; [intros [] |]. cbn [files_at]. intros [<- | I]; [eexists; left; reflexivity |]. destruct (IH (behind c (file_sizes h)) I) as (b & B). exists b. right. exact B. }
  pose proof (files_end_low fs (behind a (file_sizes f)) Ff) as Lw. pose proof (behind_low (file_sizes f) a (file_sizes_nonneg f (so_fine _ _ _ So1))) as Lw'.
  destruct (file_accepted labels labels' out f a El So1 Ar1 H1 ltac:(lia)) as (p & P & Ok & Lp). rewrite P. cbn [rbind].
  destruct (psx_file_spec _ _ _ _ _ (so_fine _ _ _ So1) P Ok) as (Ad & _). rewrite Ad.
  destruct (IH (pt_labels p) (pt_out p) (behind a (file_sizes f)) Lp (fun g b I => So g b (or_intror I)) Ar2 ltac:(lia) H2) as (r & R & Or & Lr).
  rewrite R. cbn [rbind]. eexists. split; [reflexivity |]. cbn [pt_ok pt_labels]. rewrite Ok, Or. split; [reflexivity | exact Lr].
Qed.

(** ** Sorting keeps a sound object sound *)

Lemma sorted_sizes f : segment_sizes (sorted_file f) = segment_sizes f.
Proof. unfold segment_sizes, sorted_file. cbn [pf_segments]. rewrite map_map. reflexivity. Qed.
Lemma sorted_file_sizes f : file_sizes (sorted_file f) = file_sizes f.
Proof. unfold file_sizes. rewrite sorted_sizes. reflexivity. Qed.
Lemma sorted_segment_at f a s x : segment_at f a s x -> segment_at (sorted_file f) a (sort_segment s) x.
Proof. unfold segment_at. rewrite sorted_sizes. cbn [sorted_file pf_segments]. rewrite map_combine_l. intros I. apply in_map_iff. exists (s, x). auto. Qed.
Lemma segment_at_sorted f a s x : segment_at (sorted_file f) a s x -> exists s', s = sort_segment s' /\ segment_at f a s' x.
Proof. unfold segment_at. rewrite sorted_sizes. cbn [sorted_file pf_segments]. rewrite map_combine_l. intros I. apply in_map_iff in I. destruct I as ([s' y] & E & I). inversion E; subst. exists s'. auto. Qed.
Lemma sorted_area_at f a y x : area_at (sorted_file f) a y x <-> area_at f a y x.
Proof. unfold area_at. rewrite sorted_sizes. reflexivity. Qed.
Lemma sorted_symbol_at f a y v : symbol_at (sorted_file f) a y v <-> symbol_at f a y v.
Proof.
  split; intros S.
  - destruct S as [seg off s x K P E | seg off s x K P E | id seg off s x K P E | x P]; [apply segment_at_sorted in P; destruct P as (s' & -> & P).. | apply at_area, sorted_area_at, P].
    + eapply at_internal; [exact K | exact P | exact E]. + eapply at_function; [exact K | exact P | exact E]. + eapply at_internal_id; [exact K | exact P | exact E].
  - destruct S as [seg off s x K P E | seg off s x K P E | id seg off s x K P E | x P]; [apply sorted_segment_at in P.. | apply at_area, sorted_area_at, P].
    + eapply at_internal; [exact K | exact P | exact E]. + eapply at_function; [exact K | exact P | exact E]. + eapply at_internal_id; [exact K | exact P | exact E].
Qed.
Lemma sorted_fine_segment s : fine_segment s -> fine_segment (sort_segment s).
Proof.
  intros [A B C D]. constructor; cbn [sort_segment sg_data sg_rels]; auto.
  - eapply Permutation_Forall; [apply Permutation_sym, sort_perm | exact C].
  - eapply pairs_perm; [| apply Permutation_sym, sort_perm | exact D]. unfold apart4. intros x y. lia.
Qed.
Lemma sorted_fine f : fine_file f -> fine_file (sorted_file f).
Proof.
  intros [A B C D]. constructor; cbn [sorted_file pf_segments pf_symbols]; auto.
  - rewrite map_map. exact A.
  - apply Forall_forall. intros s I. apply in_map_iff in I. destruct I as (s' & <- & I). apply sorted_fine_segment. rewrite Forall_forall in B. apply B, I.
Qed.
Lemma sorted_range f a labels r : in_range f a labels r -> in_range (sorted_file f) a labels r.
Proof.
  intros R. destruct R as [s x K X Ei R1 R2 | y v K Iy Ei Sy R | y v K Iy Ky L R].
  - eapply range_segment; [exact K | apply sorted_segment_at, X | exact Ei | exact R1 | exact R2].
  - eapply range_symbol; [exact K | exact Iy | exact Ei | apply sorted_symbol_at, Sy | exact R].
  - eapply range_external; [exact K | exact Iy | exact Ky | exact L | exact R].
Qed.
Lemma sorted_sound labels f a : sound labels f a -> sound labels (sorted_file f) a.
Proof.
  intros [A B B' C D E]. constructor.
  - apply sorted_fine, A.
  - intros y Iy Ey. destruct (B y Iy Ey) as (v & V). exists v. apply sorted_symbol_at, V.
  - intros y v Iy Sy. apply B'; [exact Iy |]. apply sorted_symbol_at, Sy.
  - exact C.
  - cbn [sorted_file pf_segments]. intros s r I Ir. apply in_map_iff in I. destruct I as (s' & <- & I). apply sorted_range. apply (D s' r I). apply sort_in, Ir.
  - cbn [sorted_file pf_segments]. intros s I. apply in_map_iff in I. destruct I as (s' & <- & I). destruct (E s' I) as (E1 & E2). split.
    + intros r Ir. apply (E1 r). apply sort_in, Ir.
    + intros r Ir K. cbn [sort_segment sg_rels] in *. apply (proj1 (sort_in _ _)) in Ir. destruct (E2 r Ir K) as (l & Il & Q). exists l. split; [apply sort_in, Il | exact Q].
Qed.
Lemma sorted_files fs : forall a, files_at a (map sorted_file fs) = map (fun c => (sorted_file (fst c), snd c)) (files_at a fs).
Proof. induction fs as [| f fs IH]; intros a; [reflexivity |]. cbn [map files_at fst snd]. rewrite sorted_file_sizes, IH. reflexivity. Qed.
Lemma sorted_end fs : forall a, files_end a (map sorted_file fs) = files_end a fs.
Proof. induction fs as [| f fs IH]; intros a; [reflexivity |]. cbn [map files_end]. rewrite sorted_file_sizes. apply IH. Qed.
Lemma sorted_names fs : defined_names (map sorted_file fs) = defined_names fs.
Proof. induction fs as [| f fs IH]; [reflexivity |]. cbn [map]. rewrite !defined_names_cons, IH. reflexivity. Qed.

Lemma sound_settled labels A fs : (forall f a, In (f, a) (files_at (s32 A) fs) -> sound labels f a) ->
  (forall f s, In f fs -> In s (pf_segments f) -> one_address (sg_rels s)) -> NoDup (defined_names fs) -> files_end (s32 A) fs < 2147483648 ->
  exists out, settled labels A (map sorted_file fs) out.
Proof.
  intros So On N E.
  destruct (files_accepted (map sorted_file fs) labels labels [] (s32 A)) as (r & R & Ok & Lr); auto.
  - intros f b I. rewrite sorted_files in I. apply in_map_iff in I. destruct I as ([g c] & Eg & I). inversion Eg; subst. apply sorted_sound, So, I.
  - apply Forall_forall. intros f I. apply in_map_iff in I. destruct I as (g & <- & I). intros s Is. cbn [sorted_file pf_segments] in Is. apply in_map_iff in Is. destruct Is as (s' & <- & Is).
    cbn [sort_segment sg_rels]. split; [apply sort_sorted |]. intros q q' Iq Iq'. apply (proj1 (sort_in _ _)) in Iq. apply (proj1 (sort_in _ _)) in Iq'. apply (On g s' I Is q q' Iq Iq').
  - apply s32_range.
  - rewrite sorted_end. exact E.
  - exists (pt_out r). constructor.
    + unfold psx_import. rewrite R. cbn [rbind]. eexists. split; [reflexivity |]. cbn [pt_ok pt_out pt_labels]. auto.
    + apply Forall_forall. intros f I. apply in_map_iff in I. destruct I as (g & <- & I). apply sorted_fine.
      assert (exists b, In (g, b) (files_at (s32 A) fs)) as (b & B); [| apply (so_fine _ _ _ (So g b B))].
      clear - I. revert I. generalize (s32 A) as c. induction fs as [| h fs IH]; intros c; [intros [] |]. cbn [files_at]. intros [<- | I]; [eexists; left; reflexivity |]. destruct (IH (behind c (file_sizes h)) I) as (b & B). exists b. right. exact B.
    + rewrite sorted_names. exact N.
Qed.
