(** Saving a loaded ELF program: the parts together. *)

Require Import ZArith Lia Bool List Permutation.
Require Import ZifyBool.
Require Import Verif.Ints Verif.IntsLemmas Verif.Res Verif.BytesSpec Verif.ElfModel Verif.PsxModel Verif.ElfReadModel Verif.ElfReadSpec Verif.ElfReadProofs.
Require Import Verif.ElfSaveModel Verif.ElfSaveSpec Verif.ElfSaveProofs.
Import ListNotations.
Local Open Scope Z_scope.

Definition part_eq_dec (a b : part) : {a = b} + {a <> b}.
Proof. decide equality. Defined.

Section Program.
Variables (big : bool) (d : list Z) (h : ehdr) (gs : list (phdr * list Z)) (ss : list shdr).
Notation own s := (owner (map fst gs) s).

(** The header of a section in a loaded file. *)
Definition rel (s : shdr) : shdr :=
  match own s with Some k => match nth_error gs k with Some (g, _) => with_offset (sh_offset s - p_offset g) s | None => s end | None => s end.

Record rep (f : elf) : Prop := mkRep {
  r_hdr : f_hdr f = h;
  r_count : List.length (f_segments f) = List.length gs;
  r_segments : forall k g x, nth_error gs k = Some (g, x) -> exists seg, nth_error (f_segments f) k = Some seg /\ g_hdr seg = g /\ g_data seg = x /\
    NoDup (g_sections seg) /\ (forall i, In i (g_sections seg) <-> exists s, nth_error ss i = Some s /\ own s = Some k) /\
    (forall i, g_paddr seg = Some i -> exists s, nth_error ss i = Some s /\ own s = Some k /\ sh_offset s = p_paddr g);
  r_scount : List.length (f_sections f) = List.length ss;
  r_sections : forall i s, nth_error ss i = Some s -> exists sec, nth_error (f_sections f) i = Some sec /\ s_hdr sec = rel s /\
    (own s = None -> s_data sec = if has_bits s then bytes_at d (sh_offset s) (sh_size s) else []);
  r_nodup : NoDup (f_loose f);
  r_loose : forall i, In i (f_loose f) <-> exists s, nth_error ss i = Some s /\ own s = None
}.

Variable f : elf.
Hypothesis R : rep f.
Hypothesis Pop : populated (map fst gs) ss.

Definition isdone (p : part) (l : list part) : bool := if in_dec part_eq_dec p l then true else false.
Lemma done_head p l : isdone p (p :: l) = true.
Proof. unfold isdone. destruct (in_dec part_eq_dec p (p :: l)) as [_ | N]; [reflexivity | elim N; left; reflexivity]. Qed.
Lemma done_tail p q l : p <> q -> isdone p (q :: l) = isdone p l.
Proof. intros N. unfold isdone. destruct (in_dec part_eq_dec p (q :: l)) as [[I | I] | I], (in_dec part_eq_dec p l) as [J | J]; try reflexivity; try congruence; try contradiction. elim I. right. exact J. Qed.
Lemma done_not p l : ~ In p l -> isdone p l = false.
Proof. intros N. unfold isdone. destruct (in_dec part_eq_dec p l); [contradiction | reflexivity]. Qed.

(** What holds when some parts are done: places of the tables, the segments, their physical addresses, and the loose sections. *)
Record so_far (done : list part) (w : wstate) (tp sp : Z) (gp pp lp : nat -> Z) (ts : list (Z * Z)) (is : list (Z * list Z)) : Prop := mkSoFar {
  sf_parts : parts (w_out w) ts is;
  sf_gcount : List.length (w_segments w) = List.length gs;
  sf_scount : List.length (w_sections w) = List.length ss;
  sf_hdr : w_hdr w = with_tables (e_phoff (w_hdr w)) (e_shoff (w_hdr w)) h;
  sf_phoff : isdone SegmentTable done = true -> e_phoff (w_hdr w) = u32 tp /\ In (tp, Z.of_nat (List.length gs) * e_phentsize h) ts;
  sf_shoff : isdone SectionTable done = true -> e_shoff (w_hdr w) = u32 sp /\ In (sp, Z.of_nat (List.length ss) * e_shentsize h) ts;
  sf_apart : isdone SegmentTable done = true -> isdone SectionTable done = true ->
    apart tp (Z.of_nat (List.length gs) * e_phentsize h) sp (Z.of_nat (List.length ss) * e_shentsize h);
  sf_segments : forall k g x, nth_error gs k = Some (g, x) -> exists seg seg', nth_error (f_segments f) k = Some seg /\ nth_error (w_segments w) k = Some seg' /\
    g_sections seg' = g_sections seg /\ g_data seg' = g_data seg /\ g_paddr seg' = g_paddr seg /\
    g_hdr seg' = (if isdone Segments done then with_place (u32 (gp k)) (pp k) g else g) /\
    (isdone Segments done = true -> In (gp k, x) is /\
       (pp k = p_paddr g \/ exists i s, nth_error ss i = Some s /\ own s = Some k /\ sh_offset s = p_paddr g /\ pp k = u32 (sh_offset s - p_offset g + u32 (gp k))));
  sf_sections : forall i s, nth_error ss i = Some s -> exists sec sec', nth_error (f_sections f) i = Some sec /\ nth_error (w_sections w) i = Some sec' /\ s_data sec' = s_data sec /\
    s_hdr sec' = match own s with
                 | Some k => if isdone Segments done then with_offset (u32 (sh_offset (rel s) + u32 (gp k))) s else rel s
                 | None => if isdone LooseSections done && negb (sh_type s =? SHT_NULL) then with_offset (u32 (lp i)) s else s
                 end /\
    (own s = None -> isdone LooseSections done = true -> sh_type s <> SHT_NULL -> In (lp i, s_data sec) is)
}.

Lemma rel_type s : sh_type (rel s) = sh_type s.
Proof. unfold rel. destruct (own s) as [k |]; [destruct (nth_error gs k) as [[g x] |] |]; reflexivity. Qed.
Lemma rel_with s o : with_offset o (rel s) = with_offset o s.
Proof. unfold rel. destruct (own s) as [k |]; [destruct (nth_error gs k) as [[g x] |] |]; reflexivity. Qed.
Lemma rel_none s : own s = None -> rel s = s.
Proof. unfold rel. intros ->. reflexivity. Qed.

Lemma nth_both {A B} (l : list A) (l' : list B) k x : List.length l = List.length l' -> nth_error l k = Some x -> exists y, nth_error l' k = Some y.
Proof. intros L E. destruct (nth_error l' k) as [y |] eqn:Q; [exists y; reflexivity |]. apply nth_error_None in Q. assert (k < List.length l)%nat by (apply nth_error_Some; congruence). lia. Qed.

Lemma owned_sections k seg : nth_error (f_segments f) k = Some seg -> g_sections seg <> [] /\ NoDup (g_sections seg).
Proof.
  intros E. destruct (nth_both _ _ _ _ (r_count f R) E) as ([g x] & G). destruct (r_segments f R k g x G) as (seg' & E' & _ & _ & N & I & _). rewrite E in E'. injection E' as <-. split; [| exact N].
  destruct (Pop k) as (s & S & O); [rewrite map_length; apply nth_error_Some; congruence |]. apply In_nth_error in S. destruct S as (i & S). intros Q. assert (X : In i (g_sections seg)) by (apply I; exists s; split; assumption). rewrite Q in X. destruct X.
Qed.

(** ** The steps *)

Lemma step_segment_table done w tp sp gp pp lp ts is : ~ In SegmentTable done -> so_far done w tp sp gp pp lp ts is -> 0 <= e_phentsize h ->
  exists tp' ts', so_far (SegmentTable :: done) (save_part (f_loose f) w SegmentTable) tp' sp gp pp lp ts' is.
Proof.
  intros N S E. unfold save_part. destruct (align_more 4 (w_out w)) as (more & ->). set (out := w_out w ++ more). assert (P : parts out ts is) by (apply parts_more, S).
  assert (H := sf_hdr _ _ _ _ _ _ _ _ _ S). assert (E' : e_phentsize (w_hdr w) = e_phentsize h) by (rewrite H; reflexivity). rewrite E', (sf_gcount _ _ _ _ _ _ _ _ _ S).
  exists (size out), ((size out, Z.of_nat (List.length gs) * e_phentsize h) :: ts). constructor; cbn [w_out w_hdr w_segments w_sections].
  - apply parts_table; [exact P | apply Z.mul_nonneg_nonneg; [lia | exact E]].
  - exact (sf_gcount _ _ _ _ _ _ _ _ _ S).
  - exact (sf_scount _ _ _ _ _ _ _ _ _ S).
  - rewrite H. reflexivity.
  - intros _. split; [reflexivity | left; reflexivity].
  - rewrite done_tail by discriminate. intros D. destruct (sf_shoff _ _ _ _ _ _ _ _ _ S D) as (A & B). split; [exact A | right; exact B].
  - rewrite (done_tail SectionTable) by discriminate. intros _ D. destruct (sf_shoff _ _ _ _ _ _ _ _ _ S D) as (_ & B). right. exact (proj2 (proj2 (pt_tables _ _ _ P _ _ B))).
  - rewrite done_tail by discriminate. exact (sf_segments _ _ _ _ _ _ _ _ _ S).
  - rewrite !done_tail by discriminate. exact (sf_sections _ _ _ _ _ _ _ _ _ S).
Qed.
Lemma step_section_table done w tp sp gp pp lp ts is : ~ In SectionTable done -> so_far done w tp sp gp pp lp ts is -> 0 <= e_shentsize h ->
  exists sp' ts', so_far (SectionTable :: done) (save_part (f_loose f) w SectionTable) tp sp' gp pp lp ts' is.
Proof.
  intros N S E. unfold save_part. destruct (align_more 4 (w_out w)) as (more & ->). set (out := w_out w ++ more). assert (P : parts out ts is) by (apply parts_more, S).
  assert (H := sf_hdr _ _ _ _ _ _ _ _ _ S). assert (E' : e_shentsize (w_hdr w) = e_shentsize h) by (rewrite H; reflexivity). rewrite E', (sf_scount _ _ _ _ _ _ _ _ _ S).
  exists (size out), ((size out, Z.of_nat (List.length ss) * e_shentsize h) :: ts). constructor; cbn [w_out w_hdr w_segments w_sections].
  - apply parts_table; [exact P | apply Z.mul_nonneg_nonneg; [lia | exact E]].
  - exact (sf_gcount _ _ _ _ _ _ _ _ _ S).
  - exact (sf_scount _ _ _ _ _ _ _ _ _ S).
  - rewrite H. reflexivity.
  - rewrite done_tail by discriminate. intros D. destruct (sf_phoff _ _ _ _ _ _ _ _ _ S D) as (A & B). split; [exact A | right; exact B].
  - intros _. split; [reflexivity | left; reflexivity].
  - rewrite (done_tail SegmentTable) by discriminate. intros D _. destruct (sf_phoff _ _ _ _ _ _ _ _ _ S D) as (_ & B). left. exact (proj2 (proj2 (pt_tables _ _ _ P _ _ B))).
  - rewrite done_tail by discriminate. exact (sf_segments _ _ _ _ _ _ _ _ _ S).
  - rewrite !done_tail by discriminate. exact (sf_sections _ _ _ _ _ _ _ _ _ S).
Qed.

Lemma pairs_of {A} (P : A -> A -> Prop) : forall l, (forall i j x y, (i < j)%nat -> nth_error l i = Some x -> nth_error l j = Some y -> P x y) -> ForallOrdPairs P l.
Proof.
  induction l as [| x l IH]; intros H; [apply FOP_nil |]. apply FOP_cons.
  - apply Forall_forall. intros y Y. apply In_nth_error in Y. destruct Y as (j & Y). apply (H O (S j)); [lia | reflexivity | exact Y].
  - apply IH. intros i j a b L A' B'. apply (H (S i) (S j)); [lia | exact A' | exact B'].
Qed.

Lemma step_segments done w tp sp gp pp lp ts is : ~ In Segments done -> so_far done w tp sp gp pp lp ts is ->
  exists gp' pp' is', so_far (Segments :: done) (save_part (f_loose f) w Segments) tp sp gp' pp' lp ts is'.
Proof.
  intros N S. assert (D := done_not _ _ N).
  assert (Seg : forall k seg', nth_error (w_segments w) k = Some seg' -> exists g x seg, nth_error gs k = Some (g, x) /\ nth_error (f_segments f) k = Some seg /\ g_hdr seg' = g /\ g_data seg' = x /\
            g_sections seg' = g_sections seg /\ g_paddr seg' = g_paddr seg).
  { intros k seg' E. destruct (nth_both _ _ _ _ (sf_gcount _ _ _ _ _ _ _ _ _ S) E) as ([g x] & G). destruct (sf_segments _ _ _ _ _ _ _ _ _ S k g x G) as (seg & seg2 & A & B & C1 & C2 & C3 & C4 & _).
    rewrite E in B. injection B as <-. rewrite D in C4. destruct (r_segments f R k g x G) as (seg3 & A3 & _ & X3 & _). rewrite A in A3. injection A3 as <-.
    exists g, x, seg. repeat split; congruence. }
  assert (F1 : Forall (fun g => g_sections g <> [] /\ NoDup (g_sections g)) (w_segments w)).
  { apply Forall_forall. intros seg' I. apply In_nth_error in I. destruct I as (k & E). destruct (Seg k seg' E) as (g & x & seg & _ & A & _ & _ & C & _). rewrite C. exact (owned_sections k seg A). }
  assert (Mem : forall k seg' i, nth_error (w_segments w) k = Some seg' -> In i (g_sections seg') <-> exists s, nth_error ss i = Some s /\ own s = Some k).
  { intros k seg' i E. destruct (Seg k seg' E) as (g & x & seg & G & A & _ & _ & C & _). rewrite C. destruct (r_segments f R k g x G) as (seg3 & A3 & _ & _ & _ & I & _). rewrite A in A3. injection A3 as <-. apply I. }
  assert (F2 : ForallOrdPairs strange (w_segments w)).
  { apply pairs_of. intros i j x y L X Y n A B. apply (Mem _ _ _ X) in A. apply (Mem _ _ _ Y) in B. destruct A as (s & A1 & A2), B as (t & B1 & B2). assert (i = j) by congruence. lia. }
  destruct (write_segments_done (w_segments w) (w_out w) (w_sections w) ts is (sf_parts _ _ _ _ _ _ _ _ _ S) F1 F2) as (ps & out' & ss' & gs' & is' & E & P & I & L1 & L2 & K & C).
  unfold save_part. rewrite E.
  exists (fun k => nth k ps 0), (fun k => match nth_error gs' k with Some seg => p_paddr (g_hdr seg) | None => 0 end), is'. constructor; cbn [w_out w_hdr w_segments w_sections].
  - exact P.
  - rewrite L1. exact (sf_gcount _ _ _ _ _ _ _ _ _ S).
  - rewrite L2. exact (sf_scount _ _ _ _ _ _ _ _ _ S).
  - exact (sf_hdr _ _ _ _ _ _ _ _ _ S).
  - rewrite done_tail by discriminate. exact (sf_phoff _ _ _ _ _ _ _ _ _ S).
  - rewrite done_tail by discriminate. exact (sf_shoff _ _ _ _ _ _ _ _ _ S).
  - rewrite !done_tail by discriminate. exact (sf_apart _ _ _ _ _ _ _ _ _ S).
  - intros k g x G. destruct (sf_segments _ _ _ _ _ _ _ _ _ S k g x G) as (seg & seg1 & A & B & C1 & C2 & C3 & C4 & _). rewrite D in C4.
    destruct (K k seg1 B) as (p & paddr & Q1 & Q2 & Q3 & Q4 & Q5 & Q6). exists seg. eexists. split; [exact A |]. split; [exact Q2 |]. cbn [g_sections g_data g_paddr g_hdr].
    split; [exact C1 |]. split; [exact C2 |]. split; [exact C3 |]. rewrite done_head. rewrite (nth_error_nth _ _ 0 Q1), Q2. cbn [g_hdr]. split; [rewrite C4; reflexivity |]. intros _.
    destruct (r_segments f R k g x G) as (seg3 & A3 & H3 & X3 & N3 & I3 & P3). rewrite A in A3. injection A3 as <-.
    split; [rewrite <- X3, <- C2; exact Q3 |]. rewrite C4. cbn [with_place p_paddr]. destruct (g_paddr seg) as [i |] eqn:Pa.
    + right. destruct (P3 i eq_refl) as (s & S1 & S2 & S3). exists i, s. split; [exact S1 |]. split; [exact S2 |]. split; [exact S3 |].
      destruct (sf_sections _ _ _ _ _ _ _ _ _ S i s S1) as (sec & sec' & _ & W1 & _ & W2 & _). rewrite S2, D in W2.
      rewrite (Q5 i sec'); [| congruence | rewrite C1; apply I3; exists s; split; assumption | exact W1]. rewrite W2. unfold rel. rewrite S2, G. reflexivity.
    + left. rewrite (Q4 C3), C4. reflexivity.
  - intros i s Si. destruct (sf_sections _ _ _ _ _ _ _ _ _ S i s Si) as (sec & sec' & A & B & C1 & C2 & C3). rewrite (done_tail LooseSections) by discriminate. rewrite done_head.
    destruct (own s) as [k |] eqn:O.
    + rewrite D in C2. assert (G : exists seg, nth_error (w_segments w) k = Some seg).
      { assert (k < List.length (w_segments w))%nat; [| destruct (nth_error (w_segments w) k) as [y |] eqn:Y; [exists y; reflexivity | apply nth_error_None in Y; lia]].
        rewrite (sf_gcount _ _ _ _ _ _ _ _ _ S). rewrite <- (map_length fst gs). clear - O. revert k O. generalize (map fst gs). induction l as [| g l IH]; intros k O; [discriminate O |]. cbn [owner] in O. cbn [List.length].
        destruct (holds g s); [injection O as <-; lia |]. destruct (owner l s) as [j |]; [| discriminate O]. injection O as <-. specialize (IH j eq_refl). lia. }
      destruct G as (seg & G). destruct (K k seg G) as (p & paddr & Q1 & _ & _ & _ & _ & Q6). exists sec. eexists. split; [exact A |]. split; [apply Q6; [apply (Mem _ _ _ G); exists s; split; assumption | exact B] |].
      split; [exact C1 |]. rewrite (nth_error_nth _ _ 0 Q1). unfold setOffsetBase, with_header. cbn [s_hdr]. rewrite C2, rel_with. split; [reflexivity | discriminate].
    + exists sec, sec'. split; [exact A |]. split.
      * apply C; [exact B |]. intros seg G Q. apply In_nth_error in G. destruct G as (k & G). apply (Mem _ _ _ G) in Q. destruct Q as (t & Q1 & Q2). congruence.
      * split; [exact C1 |]. split; [exact C2 |]. intros _ X T. apply I. apply C3; [reflexivity | exact X | exact T].
Qed.

Lemma step_loose done w tp sp gp pp lp ts is : ~ In LooseSections done -> so_far done w tp sp gp pp lp ts is ->
  exists lp' is', so_far (LooseSections :: done) (save_part (f_loose f) w LooseSections) tp sp gp pp lp' ts is'.
Proof.
  intros N S. assert (D := done_not _ _ N).
  destruct (write_looses_done (f_loose f) (w_out w) (w_sections w) ts is (sf_parts _ _ _ _ _ _ _ _ _ S) (r_nodup f R)) as (lp' & out' & ss' & is' & E & P & I & L & C).
  unfold save_part. rewrite E. exists lp', is'. constructor; cbn [w_out w_hdr w_segments w_sections].
  - exact P.
  - exact (sf_gcount _ _ _ _ _ _ _ _ _ S).
  - rewrite L. exact (sf_scount _ _ _ _ _ _ _ _ _ S).
  - exact (sf_hdr _ _ _ _ _ _ _ _ _ S).
  - rewrite done_tail by discriminate. exact (sf_phoff _ _ _ _ _ _ _ _ _ S).
  - rewrite done_tail by discriminate. exact (sf_shoff _ _ _ _ _ _ _ _ _ S).
  - rewrite !done_tail by discriminate. exact (sf_apart _ _ _ _ _ _ _ _ _ S).
  - rewrite done_tail by discriminate. intros k g x G. destruct (sf_segments _ _ _ _ _ _ _ _ _ S k g x G) as (seg & seg1 & A & B & C1 & C2 & C3 & C4 & C5). exists seg, seg1.
    split; [exact A |]. split; [exact B |]. split; [exact C1 |]. split; [exact C2 |]. split; [exact C3 |]. split; [exact C4 |]. intros Q. destruct (C5 Q) as (X & Y). split; [apply I, X | exact Y].
  - intros i s Si. destruct (sf_sections _ _ _ _ _ _ _ _ _ S i s Si) as (sec & sec' & A & B & C1 & C2 & C3). rewrite (done_tail Segments) by discriminate. rewrite done_head. cbn [andb].
    destruct (C i sec' B) as (Y & X). destruct (own s) as [k |] eqn:O.
    + exists sec, sec'. split; [exact A |]. split; [| split; [exact C1 |]; split; [exact C2 | discriminate]]. apply X. intros Q. apply (r_loose f R) in Q. destruct Q as (t & Q1 & Q2). congruence.
    + rewrite D in C2. cbn [andb] in C2. specialize (Y (proj2 (r_loose f R i) (ex_intro _ s (conj Si O)))). rewrite C2 in Y. destruct (Z.eqb_spec (sh_type s) SHT_NULL) as [T | T]; cbn [negb].
      * exists sec, sec'. split; [exact A |]. split; [exact Y |]. split; [exact C1 |]. split; [exact C2 |]. intros _ _ Q. contradiction.
      * destruct Y as (Y1 & Y2). exists sec. eexists. split; [exact A |]. split; [exact Y1 |]. split; [exact C1 |]. split; [unfold with_header; cbn [s_hdr]; reflexivity |]. intros _ _ _. rewrite <- C1. exact Y2.
Qed.

Hypothesis Room : roomy h.

Lemma all_parts order : NoDup order -> forall done w tp sp gp pp lp ts is, (forall p, In p order -> ~ In p done) -> so_far done w tp sp gp pp lp ts is ->
  exists tp' sp' gp' pp' lp' ts' is', so_far (rev order ++ done) (fold_left (save_part (f_loose f)) order w) tp' sp' gp' pp' lp' ts' is'.
Proof.
  induction order as [| p order IH]; intros N done w tp sp gp pp lp ts is D S; [exists tp, sp, gp, pp, lp, ts, is; exact S |]. inversion N as [| ? ? N1 N2]; subst. cbn [fold_left rev].
  assert (X : exists tp' sp' gp' pp' lp' ts' is', so_far (p :: done) (save_part (f_loose f) w p) tp' sp' gp' pp' lp' ts' is').
  { assert (Dp := D p (or_introl eq_refl)). destruct Room as (R1 & R2). destruct p.
    - destruct (step_segment_table done w tp sp gp pp lp ts is Dp S) as (a & b & Q); [lia |]. do 7 eexists. exact Q.
    - destruct (step_section_table done w tp sp gp pp lp ts is Dp S) as (a & b & Q); [lia |]. do 7 eexists. exact Q.
    - destruct (step_segments done w tp sp gp pp lp ts is Dp S) as (a & b & c & Q). do 7 eexists. exact Q.
    - destruct (step_loose done w tp sp gp pp lp ts is Dp S) as (a & b & Q). do 7 eexists. exact Q. }
  destruct X as (tp' & sp' & gp' & pp' & lp' & ts' & is' & X). rewrite <- app_assoc. cbn [app]. refine (IH N2 (p :: done) _ tp' sp' gp' pp' lp' ts' is' _ X).
  intros q Q [-> | I]; [contradiction | exact (D q (or_intror Q) I)].
Qed.
Lemma start_so_far : so_far [] (mkW (repeat 0 52) (f_hdr f) (f_segments f) (f_sections f)) 0 0 (fun _ => 0) (fun _ => 0) (fun _ => 0) [] [].
Proof.
  constructor; cbn [w_out w_hdr w_segments w_sections].
  - constructor; [reflexivity | intros p n [] | intros p x [] | intros p n q x []].
  - exact (r_count f R).
  - exact (r_scount f R).
  - rewrite (r_hdr f R). destruct h. reflexivity.
  - discriminate.
  - discriminate.
  - discriminate.
  - intros k g x G. destruct (r_segments f R k g x G) as (seg & A & B & C & _). exists seg, seg. split; [exact A |]. split; [exact A |]. split; [reflexivity |]. split; [reflexivity |]. split; [reflexivity |]. split; [exact B | discriminate].
  - intros i s S. destruct (r_sections f R i s S) as (sec & A & B & C). exists sec, sec. split; [exact A |]. split; [exact A |]. split; [reflexivity |]. split; [| discriminate].
    rewrite B. destruct (own s) as [k |] eqn:O; [reflexivity |]. rewrite rel_none by exact O. reflexivity.
Qed.

(** ** The file *)

Hypothesis Sizes : forall k g x, nth_error gs k = Some (g, x) -> p_filesz g = size x.
Hypothesis P : exists gs0, program big d h gs0 ss /\ map fst gs0 = map fst gs.

Lemma seg_fine k g x : nth_error gs k = Some (g, x) -> fine_phdr g.
Proof.
  intros G. destruct P as (gs0 & P0 & E). assert (G' : nth_error (map fst gs) k = Some g) by (rewrite nth_error_map, G; reflexivity). rewrite <- E, nth_error_map in G'.
  destruct (nth_error gs0 k) as [[g0 x0] |] eqn:G0; [| discriminate G']. injection G' as ->. exact (proj1 (proj2 (pg_segments _ _ _ _ _ P0 k g x0 G0))).
Qed.
Lemma owner_holds l s : forall k, owner l s = Some k -> exists g, nth_error l k = Some g /\ holds g s = true.
Proof.
  induction l as [| g l IH]; intros k O; [discriminate O |]. cbn [owner] in O. destruct (holds g s) eqn:E; [injection O as <-; exists g; split; [reflexivity | exact E] |].
  destruct (owner l s) as [j |]; [| discriminate O]. injection O as <-. exact (IH j eq_refl).
Qed.
Lemma owned s k : own s = Some k -> exists g x, nth_error gs k = Some (g, x) /\ p_offset g <= sh_offset s /\ sh_offset s + extent s <= p_offset g + size x.
Proof.
  intros O. destruct (owner_holds _ _ _ O) as (g & G & X). rewrite nth_error_map in G. destruct (nth_error gs k) as [[g0 x] |] eqn:E; [| discriminate G]. injection G as ->. cbn [fst] in X.
  exists g, x. split; [reflexivity |]. rewrite <- (Sizes _ _ _ E). unfold holds in X. lia.
Qed.

Lemma frame_has d1 d2 lo hi p y : frame d1 d2 lo hi -> has d1 p y -> apart lo (hi - lo) p (size y) -> has d2 p y.
Proof. intros F H A. apply F; [exact H |]. unfold apart in A. lia. Qed.

Lemma is_word_u32 a : is_word (u32 a).
Proof. unfold is_word, u32. change (2 ^ 32) with 4294967296. apply Z.mod_pos_bound. lia. Qed.

Lemma put_words_size b ws : forall x pos, 0 <= pos -> size (put_words b x pos ws) = size x.
Proof. induction ws as [| v ws IH]; intros x pos Q; cbn [put_words]; [reflexivity |]. rewrite IH by lia. apply put_size, Q. Qed.
Lemma segment_table_size b step l : 0 <= step -> forall x pos, 0 <= pos -> size (write_segment_table b x pos step l) = size x.
Proof. intros St. induction l as [| v l IH]; intros x pos Q; cbn [write_segment_table]; [reflexivity |]. rewrite IH by lia. apply put_words_size, Q. Qed.
Lemma section_table_size b step l : 0 <= step -> forall x pos, 0 <= pos -> size (write_section_table b x pos step l) = size x.
Proof. intros St. induction l as [| v l IH]; intros x pos Q; cbn [write_section_table]; [reflexivity |]. rewrite IH by lia. apply put_words_size, Q. Qed.
Lemma small a : 0 <= a < 4294967296 -> u32 a = a.
Proof. intros A. unfold u32. apply Z.mod_small. exact A. Qed.
Lemma has_bytes x p y n : has x p y -> size y = n -> bytes_at x p n = y.
Proof. intros (_ & H) <-. unfold bytes_at. replace (Z.to_nat (size y)) with (List.length y) by (unfold size; lia). exact H. Qed.
Lemma bytes_at_size x p n : 0 <= p -> 0 <= n -> p + n <= size x -> size (bytes_at x p n) = n.
Proof. intros A B C. unfold bytes_at, size in *. rewrite firstn_length, skipn_length. lia. Qed.

Lemma map_combine_nth {A B C} (a : A -> B) (c : A -> C) (l : list A) k y : nth_error (map (fun s => (a s, c s)) l) k = Some y -> exists s, nth_error l k = Some s /\ y = (a s, c s).
Proof. rewrite nth_error_map. destruct (nth_error l k) as [s |]; [| discriminate]. intros E. injection E as <-. exists s. split; reflexivity. Qed.
Lemma fine_extent s : fine_shdr s -> 0 <= extent s /\ 0 <= sh_offset s /\ 0 <= sh_size s.
Proof.
  intros F. unfold fine_shdr in F. rewrite Forall_forall in F. assert (A : is_word (sh_offset s)) by (apply F; unfold shdr_fields; cbn [In]; tauto). assert (B : is_word (sh_size s)) by (apply F; unfold shdr_fields; cbn [In]; tauto).
  unfold is_word in *. unfold extent. destruct (sh_type s =? SHT_NOBITS); lia.
Qed.
Lemma forall2_nth {A B} (Q : A -> B -> Prop) : forall l l', List.length l = List.length l' -> (forall i x y, nth_error l i = Some x -> nth_error l' i = Some y -> Q x y) -> Forall2 Q l l'.
Proof.
  induction l as [| x l IH]; intros [| y l'] L H; try discriminate L; [apply Forall2_nil |]. apply Forall2_cons; [exact (H O x y eq_refl eq_refl) |]. apply IH; [cbn [List.length] in L; lia |].
  intros i a b A' B'. exact (H (S i) a b A' B').
Qed.

Theorem saved_program order : Permutation order [SegmentTable; SectionTable; Segments; LooseSections] -> size (save order f) < 2147483648 ->
  exists h' gs' ss', program big (save order f) h' gs' ss' /\ kept d h gs ss (save order f) h' gs' ss'.
Proof.
  intros Pm Sz. assert (ND : NoDup order) by (eapply Permutation_NoDup; [apply Permutation_sym; exact Pm |]; repeat constructor; cbn [In]; intuition discriminate).
  destruct (all_parts order ND [] _ _ _ _ _ _ _ _ (fun p _ Q => Q) start_so_far) as (tp & sp & gp & pp & lp & ts & is & S). rewrite app_nil_r in S.
  unfold save in Sz |- *. set (w := fold_left (save_part (f_loose f)) order _) in *. cbv zeta in Sz |- *.
  assert (Dn : forall p, isdone p (rev order) = true).
  { intros p. unfold isdone. destruct (in_dec part_eq_dec p (rev order)) as [I | I]; [reflexivity |]. elim I. apply -> in_rev. eapply Permutation_in; [apply Permutation_sym; exact Pm |]. destruct p; cbn [In]; tauto. }
  destruct P as (gs0 & P0 & Eg). destruct Room as (R1 & R2).
  assert (Hh := sf_hdr _ _ _ _ _ _ _ _ _ S). destruct (pg_fine _ _ _ _ _ P0) as (I16 & Big & Fine).
  assert (Bw : is_big (e_ident (w_hdr w)) = big) by (rewrite Hh; exact Big). rewrite Bw in *.
  assert (Pt := sf_parts _ _ _ _ _ _ _ _ _ S).
  destruct (sf_phoff _ _ _ _ _ _ _ _ _ S (Dn _)) as (Ep & Tp). destruct (sf_shoff _ _ _ _ _ _ _ _ _ S (Dn _)) as (Es & Ts).
  assert (Ap := sf_apart _ _ _ _ _ _ _ _ _ S (Dn _) (Dn _)).
  assert (Tb := pt_tables _ _ _ Pt _ _ Tp). assert (Sb := pt_tables _ _ _ Pt _ _ Ts).
  set (d1 := writeElfHeader big (w_out w) (w_hdr w)) in *.
  destruct (elf_header_put big (w_out w) (w_hdr w)) as (H1 & F1); [rewrite Hh; exact I16 | exact (pt_size _ _ _ Pt) |]. fold d1 in H1, F1.
  set (d2 := write_segment_table big d1 (e_phoff (w_hdr w)) (e_phentsize (w_hdr w)) (w_segments w)) in *.
  set (d3 := write_section_table big d2 (e_shoff (w_hdr w)) (e_shentsize (w_hdr w)) (w_sections w)) in *.
  assert (Ee : e_phentsize (w_hdr w) = e_phentsize h /\ e_shentsize (w_hdr w) = e_shentsize h) by (rewrite Hh; split; reflexivity). destruct Ee as (Ee1 & Ee2).
  assert (Z2 : size d2 = size d1) by (apply segment_table_size; [lia | rewrite Ep; apply is_word_u32]).
  assert (Z3 : size d3 = size d2) by (apply section_table_size; [lia | rewrite Es; apply is_word_u32]).
  assert (So : size (w_out w) < 2147483648) by (rewrite <- (proj1 F1); lia).
  assert (U1 : u32 tp = tp) by (apply small; lia). assert (U2 : u32 sp = sp) by (apply small; lia). rewrite U1 in Ep. rewrite U2 in Es.
  assert (Gc := sf_gcount _ _ _ _ _ _ _ _ _ S). assert (Sc := sf_scount _ _ _ _ _ _ _ _ _ S).
  destruct (segment_table_put big (e_phentsize (w_hdr w)) (w_segments w) d1 (e_phoff (w_hdr w))) as (H2 & F2); [lia | lia | rewrite (proj1 F1), Gc, Ee1; lia |]. fold d2 in H2, F2.
  destruct (section_table_put big (e_shentsize (w_hdr w)) (w_sections w) d2 (e_shoff (w_hdr w))) as (H3 & F3); [lia | lia | rewrite Z2, (proj1 F1), Sc, Ee2; lia |]. fold d3 in H3, F3.
  rewrite Gc, Ee1, Ep in F2. rewrite Sc, Ee2, Es in F3. rewrite Ee1, Ep in H2. rewrite Ee2, Es in H3.
  assert (Items : forall p x, In (p, x) is -> has d3 p x /\ p + size x <= size d3 /\ 52 <= p < 2147483648).
  { intros p x I. destruct (pt_items _ _ _ Pt p x I) as (A & B & C). assert (N := size_nonneg x).
    split; [| rewrite Z3, Z2, (proj1 F1); lia]. eapply frame_has; [exact F3 | | replace (sp + Z.of_nat (List.length ss) * e_shentsize h - sp) with (Z.of_nat (List.length ss) * e_shentsize h) by lia; exact (pt_apart _ _ _ Pt _ _ _ _ Ts I)].
    eapply frame_has; [exact F2 | | replace (tp + Z.of_nat (List.length gs) * e_phentsize h - tp) with (Z.of_nat (List.length gs) * e_phentsize h) by lia; exact (pt_apart _ _ _ Pt _ _ _ _ Tp I)].
    eapply frame_has; [exact F1 | exact B | left; lia]. }
  assert (Sd3 : size d3 = size (w_out w)) by (rewrite Z3, Z2; apply F1).
  set (gs' := map (fun s => (g_hdr s, g_data s)) (w_segments w)). set (ss' := map s_hdr (w_sections w)).
  (* segments *)
  assert (Sg : forall k g x, nth_error gs k = Some (g, x) -> exists g', nth_error gs' k = Some (g', x) /\ g' = with_place (gp k) (pp k) g /\ In (gp k, x) is /\
     (pp k = p_paddr g \/ exists i s, nth_error ss i = Some s /\ own s = Some k /\ sh_offset s = p_paddr g /\ pp k = sh_offset s - p_offset g + gp k)).
  { intros k g x G. destruct (sf_segments _ _ _ _ _ _ _ _ _ S k g x G) as (seg & seg' & A & B & C1 & C2 & C3 & C4 & C5). rewrite Dn in C4, C5. destruct (C5 eq_refl) as (C6 & C7).
    destruct (Items _ _ C6) as (J1 & J2 & J3). rewrite small in C4 by lia. exists (g_hdr seg'). assert (Xd : g_data seg' = x).
    { destruct (r_segments f R k g x G) as (seg3 & A3 & _ & X3 & _). rewrite A in A3. injection A3 as <-. congruence. }
    split; [unfold gs'; rewrite nth_error_map, B; cbn [option_map]; rewrite Xd; reflexivity |]. split; [exact C4 |]. split; [exact C6 |]. destruct C7 as [C7 | (i & s & X1 & X2 & X3 & X4)]; [left; exact C7 |].
    right. exists i, s. split; [exact X1 |]. split; [exact X2 |]. split; [exact X3 |]. destruct (owned s k X2) as (g1 & x1 & G1 & O1 & O2). rewrite G in G1. injection G1 as <- <-.
    destruct (pg_sections _ _ _ _ _ P0 i s X1) as (_ & Fs & _). destruct (fine_extent s Fs) as (Ex & _).
    rewrite X4, (small (gp k)) by lia. apply small. lia. }
  (* sections *)
  assert (Sx : forall i s, nth_error ss i = Some s -> 0 <= extent s /\ 0 <= sh_offset s /\ 0 <= sh_size s).
  { intros i s X1. destruct (pg_sections _ _ _ _ _ P0 i s X1) as (_ & Fs & _). exact (fine_extent s Fs). }
  assert (Ssec : forall i s, nth_error ss i = Some s -> exists s', nth_error ss' i = Some s' /\ (exists o, s' = with_offset o s /\ 0 <= o < 4294967296) /\
     sh_offset s' + extent s < 2147483648 /\ (has_bits s = true -> sh_offset s' + sh_size s <= size d3) /\
     (forall k g x, own s = Some k -> nth_error gs k = Some (g, x) -> sh_offset s' = sh_offset s - p_offset g + gp k) /\
     (own s = None -> has_bits s = true -> bytes_at d3 (sh_offset s') (sh_size s) = bytes_at d (sh_offset s) (sh_size s))).
  { intros i s X1. destruct (sf_sections _ _ _ _ _ _ _ _ _ S i s X1) as (sec & sec' & A & B & C1 & C2 & C3). rewrite !Dn in C2. exists (s_hdr sec'). split; [unfold ss'; rewrite nth_error_map, B; reflexivity |].
    destruct (Sx i s X1) as (Ex & Eo & Ez). destruct (pg_sections _ _ _ _ _ P0 i s X1) as (_ & _ & Lim & Fit). destruct (own s) as [k |] eqn:O.
    - destruct (owned s k O) as (g & x & G & O1 & O2). destruct (Sg k g x G) as (g' & _ & _ & I & _). destruct (Items _ _ I) as (J1 & J2 & J3).
      assert (Rl : sh_offset (rel s) = sh_offset s - p_offset g) by (unfold rel; rewrite O, G; reflexivity). rewrite Rl, (small (gp k)), small in C2 by lia. rewrite C2. cbn [with_offset sh_offset].
      split; [eexists; split; [reflexivity | lia] |]. split; [lia |]. split.
      + intros Hb. assert (extent s = sh_size s) by (unfold extent, has_bits in *; destruct (sh_type s =? SHT_NOBITS); [rewrite andb_false_r in Hb; discriminate Hb | reflexivity]). lia.
      + split; [| discriminate]. intros k' g1 x1 Q G1. injection Q as <-. rewrite G in G1. injection G1 as <- <-. reflexivity.
    - rewrite Dn in C3. destruct (Z.eqb_spec (sh_type s) SHT_NULL) as [T | T]; cbn [negb andb] in C2.
      + rewrite C2. assert (Nb : has_bits s = false) by (unfold has_bits; rewrite T; reflexivity). split; [exists (sh_offset s); split; [destruct s; reflexivity | lia] |].
        split; [exact Lim |]. rewrite Nb. split; [discriminate |]. split; [discriminate |]. discriminate.
      + specialize (C3 eq_refl eq_refl T). destruct (Items _ _ C3) as (J1 & J2 & J3). rewrite small in C2 by lia. rewrite C2. cbn [with_offset sh_offset].
        destruct (r_sections f R i s X1) as (sec3 & A3 & _ & D3). rewrite A in A3. injection A3 as <-. specialize (D3 O). split; [eexists; split; [reflexivity | lia] |].
        destruct (has_bits s) eqn:Hb.
        * assert (Ln : size (s_data sec) = sh_size s) by (rewrite D3; apply bytes_at_size; [exact Eo | exact Ez | apply Fit; reflexivity]).
          assert (extent s = sh_size s) by (unfold extent, has_bits in *; destruct (sh_type s =? SHT_NOBITS); [rewrite andb_false_r in Hb; discriminate Hb | reflexivity]).
          split; [lia |]. split; [intros _; lia |]. split; [discriminate |]. intros _ _. rewrite <- D3. apply has_bytes; assumption.
        * assert (extent s = 0). { unfold extent, has_bits in *. destruct (Z.eqb_spec (sh_type s) SHT_NULL); [contradiction |]. destruct (sh_type s =? SHT_NOBITS); [reflexivity | discriminate Hb]. }
          split; [lia |]. split; [discriminate |]. split; [discriminate |]. intros _ Q. discriminate Q. }
  assert (Lg : List.length gs' = List.length gs) by (unfold gs'; rewrite map_length; exact Gc). assert (Ls : List.length ss' = List.length ss) by (unfold ss'; rewrite map_length; exact Sc).
  exists (w_hdr w), gs', ss'. split.
  - constructor.
    + lia.
    + eapply frame_has; [exact F3 | eapply frame_has; [exact F2 | exact H1 |] |].
      * right. unfold apart. destruct (elf_header_put big (w_out w) (w_hdr w)) as (_ & _); [rewrite Hh; exact I16 | exact (pt_size _ _ _ Pt) |].
        assert (size (ehdr_bytes big (w_hdr w)) = 52). { unfold ehdr_bytes. rewrite !size_app, !size_two, !size_four. unfold size at 1. rewrite Hh. cbn [with_tables e_ident]. rewrite I16. reflexivity. } lia.
      * right. assert (size (ehdr_bytes big (w_hdr w)) = 52). { unfold ehdr_bytes. rewrite !size_app, !size_two, !size_four. unfold size at 1. rewrite Hh. cbn [with_tables e_ident]. rewrite I16. reflexivity. } lia.
    + destruct Fine as (Fh & Fw). rewrite Hh. split; [exact I16 |]. split; [exact Big |]. split; [exact Fh |]. cbn [with_tables e_version e_entry e_phoff e_shoff e_flags].
      assert (W1 := Forall_inv Fw). assert (Fw1 := Forall_inv_tail Fw). assert (W2 := Forall_inv Fw1). assert (Fw2 := Forall_inv_tail Fw1). assert (W3 := Forall_inv Fw2). assert (Fw3 := Forall_inv_tail Fw2). assert (W4 := Forall_inv Fw3). assert (Fw4 := Forall_inv_tail Fw3). rewrite Ep, Es.
      repeat first [assumption | apply Forall_cons]; unfold is_word; lia.
    + rewrite Lg, Hh. cbn [with_tables e_phnum]. rewrite (pg_phnum _ _ _ _ _ P0). f_equal. rewrite <- (map_length fst gs0), Eg. apply map_length.
    + rewrite Ls, Hh. cbn [with_tables e_shnum]. exact (pg_shnum _ _ _ _ _ P0).
    + intros k g' x' G'. destruct (nth_both _ _ _ _ Lg G') as ([g x] & G). destruct (Sg k g x G) as (g2 & G2 & E2 & I & Pa). rewrite G' in G2. injection G2 as -> ->.
      assert (Gb := Items _ _ I). assert (Fg := seg_fine k g x G). unfold gs' in G'. apply map_combine_nth in G'. destruct G' as (seg & G3 & Q). assert (Q1 : g2 = g_hdr seg) by congruence. clear Q.
      rewrite Ee1, Ep. split.
      * rewrite Q1. eapply frame_has; [exact F3 | apply H2; exact G3 |]. assert (Sp : size (phdr_bytes big (g_hdr seg)) = 32) by (unfold phdr_bytes; rewrite size_words; reflexivity). rewrite Sp.
        assert (K : (k < List.length gs)%nat) by (apply nth_error_Some; congruence). clear - Ap K R1. unfold apart in *.
        assert (Z.of_nat k * e_phentsize h + e_phentsize h <= Z.of_nat (List.length gs) * e_phentsize h) by (rewrite <- Z.mul_succ_l; apply Z.mul_le_mono_nonneg_r; lia).
        assert (0 <= Z.of_nat k * e_phentsize h) by lia. lia.
      * rewrite E2. cbn [with_place p_offset p_filesz]. split; [| split; [exact (proj1 Gb) |]; split; [exact (Sizes k g x G) | lia]].
        unfold fine_phdr, phdr_fields in *. cbn [with_place p_type p_offset p_vaddr p_paddr p_filesz p_memsz p_flags p_align].
        assert (W1 := Forall_inv Fg). assert (Fg1 := Forall_inv_tail Fg). assert (W2 := Forall_inv Fg1). assert (Fg2 := Forall_inv_tail Fg1). assert (W3 := Forall_inv Fg2). assert (Fg3 := Forall_inv_tail Fg2). assert (W4 := Forall_inv Fg3). assert (Fg4 := Forall_inv_tail Fg3).
        repeat first [assumption | apply Forall_cons]; [unfold is_word; lia |]. destruct Pa as [-> | (i & s & X1 & X2 & X3 & X4)]; [exact W4 |].
        destruct (owned s k X2) as (g3 & x3 & G5 & O1 & O2). rewrite G in G5. injection G5 as <- <-. destruct (Sx i s X1) as (Ex & _). unfold is_word. lia.
    + intros i s' S'. destruct (nth_both _ _ _ _ Ls S') as (s & X1). destruct (Ssec i s X1) as (s2 & S2 & (o & E2 & Or) & Lim & Fit & _). rewrite S' in S2. injection S2 as <-.
      unfold ss' in S'. rewrite nth_error_map in S'. destruct (nth_error (w_sections w) i) as [sec |] eqn:Sec; [| discriminate S']. injection S' as Q1.
      rewrite Ee2, Es. split; [rewrite <- Q1; apply H3; exact Sec |]. split.
      * destruct (pg_sections _ _ _ _ _ P0 i s X1) as (_ & Fs & _). rewrite E2. unfold fine_shdr, shdr_fields in *. cbn [with_offset sh_name sh_type sh_flags sh_addr sh_offset sh_size sh_link sh_info sh_addralign sh_entsize].
        assert (W1 := Forall_inv Fs). assert (Fs1 := Forall_inv_tail Fs). assert (W2 := Forall_inv Fs1). assert (Fs2 := Forall_inv_tail Fs1). assert (W3 := Forall_inv Fs2). assert (Fs3 := Forall_inv_tail Fs2). assert (W4 := Forall_inv Fs3). assert (Fs4 := Forall_inv_tail Fs3). assert (W5 := Forall_inv Fs4). assert (Fs5 := Forall_inv_tail Fs4).
        repeat first [assumption | apply Forall_cons].
      * assert (Xe : extent s' = extent s /\ has_bits s' = has_bits s /\ sh_size s' = sh_size s) by (rewrite E2; repeat split; reflexivity). destruct Xe as (-> & -> & ->). split; [exact Lim | exact Fit].
  - constructor.
    + rewrite Hh. repeat split.
    + apply forall2_nth; [symmetry; exact Lg |]. intros k [g x] [g' x'] G G'. destruct (Sg k g x G) as (g2 & G2 & E2 & _). rewrite G' in G2. injection G2 as -> ->. cbn [fst snd]. rewrite E2. repeat split.
    + apply forall2_nth; [symmetry; exact Ls |]. intros i s s' X1 S'. destruct (Ssec i s X1) as (s2 & S2 & (o & E2 & _) & _). rewrite S' in S2. injection S2 as <-. rewrite E2. repeat split.
    + intros i s s' k [g x] [g' x'] X1 S' O G G'. destruct (Ssec i s X1) as (s2 & S2 & _ & _ & _ & In' & _). rewrite S' in S2. injection S2 as <-.
      destruct (Sg k g x G) as (g2 & G2 & E2 & _). rewrite G' in G2. injection G2 as -> ->. cbn [fst]. rewrite (In' k g x O G), E2. cbn [with_place p_offset]. lia.
    + intros i s s' X1 S' O Hb. destruct (Ssec i s X1) as (s2 & S2 & _ & _ & _ & _ & Lo). rewrite S' in S2. injection S2 as <-. exact (Lo O Hb).
    + intros k [g x] [g' x'] G G'. destruct (Sg k g x G) as (g2 & G2 & E2 & _ & Pa). rewrite G' in G2. injection G2 as -> ->. cbn [fst]. rewrite E2. cbn [with_place p_paddr].
      destruct Pa as [Pa | (i & s & Q1 & Q2 & Q3 & Q4)]; [left; exact Pa |]. right. destruct (Ssec i s Q1) as (s' & S' & _ & _ & _ & In' & _). exists i, s, s'.
      split; [exact Q1 |]. split; [exact S' |]. split; [exact Q2 |]. split; [symmetry; exact Q3 |]. rewrite (In' k g x Q2 G). exact Q4.
Qed.
End Program.
