(** The words of a relocated PlayStation segment, by the relocator for ELF files. *)

Require Import ZArith Lia Bool String List.
Require Import ZifyBool.
Require Import Verif.Ints Verif.IntsLemmas Verif.Res Verif.ElfModel Verif.ElfSpec Verif.ElfProofs Verif.ElfRelocProofs Verif.ElfWordProofs.
Require Import Verif.PsxModel Verif.PsxReadProofs Verif.PsxLinkSpec Verif.PsxLinkProofs.
Import ListNotations.
Local Open Scope Z_scope.

(** ** A segment as an ELF file *)

Definition absolute (t : Z) : esym := mkSym EmptyString t 0 0 0 SHN_ABS.
Definition esyms (ts : list Z) : list esym := mkSym EmptyString 0 0 0 0 0 :: map absolute ts.
Fixpoint erels (i : Z) (rs : list prel) : list erel :=
  match rs with [] => [] | r :: rs => mkRel (pr_offset r) (elf_type (pr_type r)) i 0 :: erels (i + 1) rs end.
Definition no_labels : string -> option elabel := fun _ => None.
Definition section_of (s : pseg) : esec := mkSec 1 false (size (sg_data s)) 4 (sg_data s) (erels 1 (sg_rels s)).
Definition elf_of (s : pseg) (ts : list Z) : efile := mkFile false [section_of s] (esyms ts).

Lemma psx_targets offsets symbols data rs : forall hs x, psx_relocations offsets symbols data hs rs = ROk x ->
  exists ts, Forall2 (fun r t => target offsets symbols r = ROk t) rs ts.
Proof.
  induction rs as [| r rs IH]; intros hs x H; cbn [psx_relocations] in H; [exists []; constructor |].
  apply do_ok in H. destruct H as (op & _ & H). apply do_ok in H. destruct H as (t & T & H). apply do_ok in H. destruct H as ([[acts hs'] ok] & _ & H).
  apply do_ok in H. destruct H as (z & H & _). destruct (IH _ _ H) as (ts & F). exists (t :: ts). constructor; assumption.
Qed.

Lemma rels_same offsets symbols data rs ts : Forall2 (fun r t => target offsets symbols r = ROk t) rs ts ->
  Forall (fun r => 0 <= pr_offset r /\ pr_offset r + 4 <= size data) rs -> size data < 2147483648 ->
  forall pre hs, (0 < length pre)%nat ->
  relocations Mips no_labels false (pre ++ map absolute ts) [(1, 0)] data 0 hs (erels (Z.of_nat (length pre)) rs) = psx_relocations offsets symbols data hs rs.
Proof.
  intros F O Sz. induction F as [| r t rs ts T F IH]; intros pre hs Lp; [reflexivity |]. inversion O as [| ? ? O1 O2]; subst.
  cbn [erels relocations psx_relocations isDummyRelocationType r_type r_sym]. replace (Z.of_nat (length pre) <=? 0) with false by lia.
  unfold relocation_data. cbn [r_sym r_offset r_addend map]. rewrite Nat2Z.id, nth_error_app2 by lia. rewrite Nat.sub_diag. cbn [nth_error].
  rewrite s32_small by lia. destruct (getDoubleWord false data (pr_offset r)) as [op | |]; cbn [rbind]; try reflexivity.
  cbn [absolute setSymbolAddress sy_shndx sy_value sy_type]. change (SHN_ABS =? 0) with false. cbv iota.
  change (offset_of [(1, 0)] SHN_ABS) with 0. rewrite T. cbn [rbind]. rewrite !Z.add_0_l, Z.add_0_r.
  cbn [relocateOpcode]. destruct (mips_relocate _ _ hs) as [[[acts hs'] ok] | |]; cbn [rbind]; try reflexivity.
  replace (pre ++ absolute t :: map absolute ts) with ((pre ++ [absolute t]) ++ map absolute ts) by (rewrite <- app_assoc; reflexivity).
  replace (Z.of_nat (length pre) + 1) with (Z.of_nat (length (pre ++ [absolute t]))) by (rewrite app_length; cbn [length]; lia).
  rewrite IH; [reflexivity | exact O2 | rewrite app_length; lia].
Qed.

Lemma exports_none s ts : exports Mips (elf_of s ts) = [].
Proof. unfold exports, elf_of, esyms. cbn [ef_symtab filter is_exported sy_bind]. induction ts as [| t ts IH]; [reflexivity |]. exact IH. Qed.

Lemma segment_import offsets symbols s data ok : fine_segment s -> psx_segment offsets symbols s = ROk (data, ok) ->
  exists ts p, Forall2 (fun r t => target offsets symbols r = ROk t) (sg_rels s) ts /\ p_offsets p = [(1, 0)] /\
    relocate Mips no_labels 0 [elf_of s ts] = ROk (data, size (sg_data s), [p], ok) /\ length data = length (sg_data s).
Proof.
  intros Fs H. assert (H' := H). unfold psx_segment in H. apply do_ok in H. destruct H as ([[acts hs] ok1] & R & H). destruct (psx_targets _ _ _ _ _ _ R) as (ts & F).
  apply do_ok in H. destruct H as (y & Fi & H). apply do_ok in H. destruct H as (d & Ap & H). apply ROk_inj in H. inversion H; subst; clear H.
  pose proof (apply_length _ _ _ _ _ Ap) as Ln. pose proof (fs_size _ Fs) as Sz. pose proof (size_nonneg (sg_data s)) as Sz0.
  exists ts, (mkPlaced data (size (sg_data s)) [(1, 0)] [] (ok1 && snd y)). split; [exact F |]. split; [reflexivity |]. split; [| exact Ln].
  unfold relocate. cbn [relocate_files]. unfold relocateFile. cbn [elf_of ef_sections place_sections section_of se_align se_size se_index ef_big ef_symtab].
  change (align_up 0 4) with (ROk 0). cbn [rbind fst snd]. rewrite s32_small by lia. rewrite Z.add_0_l, Z.sub_0_r.
  unfold reserve at 1. replace (size (sg_data s) <? 0) with false by lia. cbn [rbind app load_sections section_of se_nobits se_index].
  change (offset_of [(1, 0)] 1) with 0. cbv zeta.
  replace (relocate_section Mips no_labels false (esyms ts) [(1, 0)] (section_of s) 0) with (ROk (data, ok1 && snd y)).
  2: { unfold relocate_section, section_of. cbn [se_data se_rels].
       pose proof (rels_same _ _ (sg_data s) _ _ F (fs_inside _ Fs) Sz [mkSym EmptyString 0 0 0 0 0] [] ltac:(cbn; lia)) as Q.
       cbn [app length] in Q. change (Z.of_nat 1) with 1 in Q. unfold esyms. rewrite Q, R. cbn [rbind finish]. rewrite Fi. cbn [rbind]. rewrite Ap. reflexivity. }
  cbn [rbind fst snd]. unfold copy_to. rewrite repeat_length. unfold size in *. cbn [length]. rewrite Nat2Z.id, Ln.
  change (Z.of_nat 0 + 0 - 0) with 0. rewrite Z.add_0_l, Z.ltb_irrefl. cbn [Z.ltb Z.compare orb rbind fst snd]. change (Z.to_nat 0) with 0%nat. cbn [firstn app Nat.add].
  rewrite skipn_all2 by (rewrite repeat_length; lia). rewrite app_nil_r.
  change (mkFile false _ (esyms ts)) with (elf_of s ts). rewrite exports_none. cbn [place_symbols rbind fst snd p_out p_address p_ok]. rewrite ?Z.ltb_irrefl. cbn [rbind fst snd p_out p_address p_ok]. rewrite ?Z.ltb_irrefl, ?andb_true_r, ?Z.sub_0_r.
  reflexivity.
Qed.

Lemma erels_in rs : forall i r, In r (erels i rs) -> exists q, In q rs /\ r_offset r = pr_offset q.
Proof. induction rs as [| q rs IH]; intros i r; cbn [erels]; [intros [] |]. intros [<- | I]; [exists q; split; [left |]; reflexivity |]. destruct (IH _ _ I) as (q' & A & B). exists q'. split; [right |]; assumption. Qed.
Lemma erels_separate s : fine_segment s -> separate (section_of s).
Proof.
  intros F. pose proof (fs_apart _ F) as A. pose proof (fs_inside _ F) as B. unfold separate, section_of. cbn [se_rels se_size]. revert B A. generalize 1 as i, (sg_rels s) as rs. intros i rs. revert i.
  induction rs as [| q rs IH]; intros i B A; cbn [erels]; [split; constructor |]. inversion A as [| ? ? A1 A2]; inversion B as [| ? ? B1 B2]; subst. destruct (IH (i + 1) B2 A2) as (C & D).
  split; constructor; try assumption. apply Forall_forall. intros r I. destruct (erels_in _ _ _ I) as (q' & I' & E). rewrite Forall_forall in A1. specialize (A1 q' I').
  unfold apart, apart4 in *. cbn [r_offset]. rewrite E. exact A1.
Qed.

Lemma segment_imported offsets symbols s data : fine_segment s -> psx_segment offsets symbols s = ROk (data, true) ->
  exists ts p, Forall2 (fun r t => target offsets symbols r = ROk t) (sg_rels s) ts /\
    imported Mips no_labels 0 [elf_of s ts] data (elf_of s ts) p (section_of s) 0.
Proof.
  intros F H. destruct (segment_import _ _ _ _ _ F H) as (ts & p & A & B & C & _). exists ts, p. split; [exact A |]. constructor.
  - exists (size (sg_data s)), [p]. split; [exact C | left; reflexivity].
  - constructor; [| constructor]. constructor; cbn [elf_of ef_sections].
    + constructor; [intros [] | constructor].
    + intros t [<- | []]. cbn. lia.
    + intros t [<- | []]. cbn. lia.
    + intros t [<- | []]. cbn [section_of se_size]. pose proof (fs_size _ F). pose proof (size_nonneg (sg_data s)). lia.
    + intros t [<- | []] _. reflexivity.
    + intros t [<- | []]. exact (fs_bytes _ F).
    + intros y I. exfalso. unfold common_symbols in I. apply filter_In in I. destruct I as (I & _). revert I.
      pose proof (exports_none s ts) as N. unfold exports in N. apply map_eq_nil in N. rewrite N. intros [].
  - unfold placed_at, section_addresses. rewrite B. left. reflexivity.
  - reflexivity.
  - apply erels_separate, F.
Qed.

(** The relocations one by one. *)
Lemma erels_app a : forall i b, erels i (a ++ b) = erels i a ++ erels (i + Z.of_nat (length a)) b.
Proof.
  induction a as [| r a IH]; intros i b; cbn [app erels length]; [f_equal; lia |]. rewrite IH. do 3 f_equal. lia.
Qed.
Lemma target_at (P : prel -> Z -> Prop) rs ts pre r post : Forall2 P rs ts -> rs = pre ++ r :: post ->
  exists t, P r t /\ nth_error (esyms ts) (Z.to_nat (1 + Z.of_nat (length pre))) = Some (absolute t).
Proof.
  intros F ->. apply Forall2_app_inv_l in F. destruct F as (t1 & t2 & F1 & F2 & ->). inversion F2 as [| ? t ? t3 T F3]; subst. exists t. split; [exact T |].
  replace (Z.to_nat (1 + Z.of_nat (length pre))) with (S (length pre)) by lia. unfold esyms. cbn [nth_error]. assert (Ll : length pre = length t1) by (clear - F1; induction F1; cbn [length]; congruence). rewrite Ll, map_app.
  rewrite <- (map_length absolute t1), nth_error_app2 by lia. rewrite Nat.sub_diag. reflexivity.
Qed.
Lemma refers_abs s ts p r t : 0 < r_sym r -> nth_error (esyms ts) (Z.to_nat (r_sym r)) = Some (absolute t) -> refers Mips no_labels (elf_of s ts) p r t false.
Proof. intros H N. exists (absolute t). split; [exact H |]. split; [exact N |]. split; [discriminate |]. apply (sa_absolute Mips no_labels (elf_of s ts) p (absolute t)). reflexivity. Qed.

(** ** The words *)

Lemma first_low (rs : list prel) : Forall (fun r => pr_type r <> LowerImmediate) rs \/
  exists mid lo post, rs = mid ++ lo :: post /\ pr_type lo = LowerImmediate /\ Forall (fun r => pr_type r <> LowerImmediate) mid.
Proof.
  induction rs as [| r rs IH]; [left; constructor |]. assert (D : pr_type r = LowerImmediate \/ pr_type r <> LowerImmediate) by (destruct (pr_type r); auto; right; discriminate).
  destruct D as [D | D]; [right; exists [], r, rs; split; [reflexivity | split; [exact D | constructor]] |].
  destruct IH as [IH | (mid & lo & post & -> & A & B)]; [left; constructor; assumption |]. right. exists (r :: mid), lo, post. split; [reflexivity |]. split; [exact A | constructor; assumption].
Qed.
Lemma not_low t : t <> LowerImmediate -> elf_type t <> R_MIPS_LO16.
Proof. destruct t; intros H; try discriminate; contradiction. Qed.
Lemma erels_not_low rs : Forall (fun r => pr_type r <> LowerImmediate) rs -> forall i, Forall (fun r => r_type r <> R_MIPS_LO16) (erels i rs).
Proof. intros F. induction F as [| r rs H F IH]; intros i; cbn [erels]; constructor; [apply not_low, H | apply IH]. Qed.

Lemma segment_word offsets symbols s data pre r post : fine_segment s -> psx_segment offsets symbols s = ROk (data, true) ->
  sg_rels s = pre ++ r :: post -> (forall q, In q (sg_rels s) -> pr_type q = LowerImmediate -> pr_type r = UpperImmediate -> word_before s q mod 65536 = 0) ->
  exists t, target offsets symbols r = ROk t /\ patched (word_before s r) (word_at false data (pr_offset r)) t (pr_type r).
Proof.
  intros Fs H E Hl. destruct (segment_imported _ _ _ _ Fs H) as (ts & p & F & Im).
  destruct (target_at _ _ _ _ _ _ F E) as (t & T & N). exists t. split; [exact T |].
  set (i := 1 + Z.of_nat (length pre)) in *. assert (Hi : 0 < i) by lia.
  set (q := mkRel (pr_offset r) (elf_type (pr_type r)) i 0).
  assert (Eq : se_rels (section_of s) = erels 1 pre ++ q :: erels (i + 1) post) by (cbn [section_of se_rels]; rewrite E, erels_app; reflexivity).
  assert (Iq : In q (se_rels (section_of s))) by (rewrite Eq; apply in_elt).
  pose proof (refers_abs s ts p q t Hi N) as Rq.
  change (word_before s r) with (before (elf_of s ts) (section_of s) q). change (word_at false data (pr_offset r)) with (after (elf_of s ts) data 0 0 q).
  destruct (pr_type r) eqn:K.
  - constructor. exact (mips_word _ _ _ _ _ _ _ _ _ _ _ Im Iq Rq eq_refl).
  - destruct (first_low post) as [A | (mid & lo & post' & Ep & Kl & Fm)].
    + destruct (mips_dangling _ _ _ _ _ _ _ _ _ _ _ _ _ Im Eq eq_refl (erels_not_low _ A _) Rq) as (B & C). constructor; assumption.
    + set (j := i + 1 + Z.of_nat (length mid)). set (ql := mkRel (pr_offset lo) (elf_type (pr_type lo)) j 0).
      assert (Eq' : se_rels (section_of s) = erels 1 pre ++ q :: erels (i + 1) mid ++ ql :: erels (j + 1) post') by (rewrite Eq, Ep, erels_app; reflexivity).
      assert (El : sg_rels s = (pre ++ r :: mid) ++ lo :: post') by (rewrite E, Ep, <- app_assoc; reflexivity).
      destruct (target_at _ _ _ _ _ _ F El) as (t' & T' & N').
      assert (Rl : refers Mips no_labels (elf_of s ts) p ql t' false).
      { apply refers_abs; cbn [r_sym ql]; [lia |]. rewrite <- N'. f_equal. rewrite app_length. cbn [length]. unfold j, i. lia. }
      destruct (mips_hi_before _ _ _ _ _ _ _ _ _ _ _ _ _ _ _ _ _ Im Eq' eq_refl (f_equal elf_type Kl) (erels_not_low _ Fm _) Rq Rl) as (_ & W).
      assert (Z0 : before (elf_of s ts) (section_of s) ql mod 65536 = 0) by (apply (Hl lo); [rewrite El; apply in_elt | exact Kl | reflexivity]).
      assert (Il : In ql (se_rels (section_of s))) by (rewrite Eq'; apply in_app_iff; right; right; apply in_elt).
      destruct (ElfWordProofs.reference _ _ _ _ _ _ _ _ _ _ _ _ Im Iq Rq) as (_ & _ & _ & _ & _ & _ & _ & Rg).
      destruct (ElfWordProofs.reference _ _ _ _ _ _ _ _ _ _ _ _ Im Il Rl) as (_ & _ & _ & _ & _ & _ & _ & Rg').
      destruct (high_half _ _ t Rg Rg') as (V1 & V2). cbv zeta in V1, V2. rewrite <- W in V1. constructor; [exact V1 |].
      rewrite W. revert V2 Z0. generalize (hi_word (mkHi 0 t (before (elf_of s ts) (section_of s) q)) (before (elf_of s ts) (section_of s) ql)) as w.
      generalize (before (elf_of s ts) (section_of s) ql) as l. intros l w V2 Z0.
      replace (sext16 (l + t)) with (sext16 t) in V2 by (unfold sext16; replace ((l + t) mod 65536) with (t mod 65536) by lia; reflexivity).
      replace (sext16 l) with 0 in V2 by (unfold sext16; rewrite Z0; reflexivity). rewrite Z.add_0_r in V2. rewrite <- V2. f_equal. f_equal. f_equal. unfold u32. clear. lia.
  - destruct (mips_low _ _ _ _ _ _ _ _ _ _ _ Im Iq Rq eq_refl) as (A & B). constructor; assumption.
  - destruct (mips_jump _ _ _ _ _ _ _ _ _ _ _ Im Iq Rq eq_refl) as (A & B). constructor; assumption.
Qed.
(** A pair, whatever the halves are. *)
Lemma segment_pair offsets symbols s data pre hi mid lo post : fine_segment s -> psx_segment offsets symbols s = ROk (data, true) ->
  sg_rels s = pre ++ hi :: mid ++ lo :: post -> pr_type hi = UpperImmediate -> pr_type lo = LowerImmediate ->
  Forall (fun r => pr_type r <> LowerImmediate) mid ->
  exists t, target offsets symbols hi = ROk t /\ target offsets symbols lo = ROk t /\
    pair_value (word_at false data (pr_offset hi)) (word_at false data (pr_offset lo)) = u32 (pair_value (word_before s hi) (word_before s lo) + t).
Proof.
  intros Fs H E Kh Kl Fm. destruct (segment_imported _ _ _ _ Fs H) as (ts & p & F & Im).
  destruct (target_at _ _ _ _ _ _ F E) as (t & T & N).
  assert (El : sg_rels s = (pre ++ hi :: mid) ++ lo :: post) by (rewrite E, <- app_assoc; reflexivity).
  destruct (target_at _ _ _ _ _ _ F El) as (t' & T' & N').
  set (i := 1 + Z.of_nat (length pre)) in *. assert (Hi : 0 < i) by lia. set (j := i + 1 + Z.of_nat (length mid)).
  set (q := mkRel (pr_offset hi) (elf_type (pr_type hi)) i 0). set (ql := mkRel (pr_offset lo) (elf_type (pr_type lo)) j 0).
  assert (Eq : se_rels (section_of s) = erels 1 pre ++ q :: erels (i + 1) mid ++ ql :: erels (j + 1) post)
    by (cbn [section_of se_rels]; rewrite E, erels_app; cbn [erels]; rewrite erels_app; reflexivity).
  assert (Rl : refers Mips no_labels (elf_of s ts) p ql t' false).
  { apply refers_abs; cbn [r_sym ql]; [lia |]. rewrite <- N'. f_equal. rewrite app_length. cbn [length]. unfold j, i. lia. }
  destruct (mips_pair _ _ _ _ _ _ _ _ _ _ _ _ _ _ _ _ _ Im Eq (f_equal elf_type Kh) (f_equal elf_type Kl) (erels_not_low _ Fm _) (refers_abs s ts p q t Hi N) Rl) as (<- & _ & _ & V).
  exists t. split; [exact T |]. split; [exact T' |]. exact V.
Qed.
Lemma segment_bytes offsets symbols s data : fine_segment s -> psx_segment offsets symbols s = ROk (data, true) ->
  forall k, 0 <= k < size (sg_data s) -> (forall r, In r (sg_rels s) -> k < pr_offset r \/ pr_offset r + 4 <= k) ->
  byte_at data k = byte_at (sg_data s) k.
Proof.
  intros Fs H k Hk O. destruct (segment_imported _ _ _ _ Fs H) as (ts & p & F & Im).
  apply (imported_bytes _ _ _ _ _ _ _ _ _ Im k Hk). intros r I. destruct (erels_in _ _ _ I) as (q & Iq & ->). apply O, Iq.
Qed.
