(** Linking PlayStation object files: the whole import. *)

Require Import ZArith Lia Bool String List.
Require Import ZifyBool.
Require Import Verif.Ints Verif.IntsLemmas Verif.Res Verif.ElfModel Verif.ElfSpec Verif.ElfProofs.
Require Import Verif.PsxModel Verif.PsxReadProofs Verif.PsxLinkSpec Verif.PsxLinkProofs Verif.PsxWordProofs.
Import ListNotations.
Local Open Scope Z_scope.

Lemma psx_segment_length offsets symbols s x : psx_segment offsets symbols s = ROk x -> length (fst x) = length (sg_data s).
Proof.
  unfold psx_segment. intros H. apply do_ok in H. destruct H as ([[acts hs] ok] & _ & H). apply do_ok in H. destruct H as (y & _ & H).
  apply do_ok in H. destruct H as (d & D & H). apply ROk_inj in H. subst. apply (apply_length _ _ _ _ _ D).
Qed.

(** ** The segments of a file *)

Section Load.
Variables (offsets symbols : imap) (ds start : Z).
Let from (s : pseg) : Z := ds + at_key offsets (sg_id s) - start.
Let till (s : pseg) : Z := from s + size (sg_data s).

Lemma load_segments_spec ss : forall out out' ok,
  ForallOrdPairs (fun s s' => till s <= from s') ss -> load_segments offsets symbols out ds start ss = ROk (out', ok) ->
  length out' = length out /\
  (forall k, 0 <= k -> Forall (fun s => k < from s \/ till s <= k) ss -> byte_at out' k = byte_at out k) /\
  (forall s, In s ss -> exists data oks, psx_segment offsets symbols s = ROk (data, oks) /\ (ok = true -> oks = true) /\
     length data = length (sg_data s) /\ 0 <= from s /\ till s <= size out /\
     (forall k, 0 <= k < size data -> byte_at out' (from s + k) = byte_at data k)).
Proof.
  induction ss as [| s ss IH]; intros out out' ok D H; cbn [load_segments] in H.
  - apply ROk_inj in H. injection H as <- <-. split; [reflexivity |]. split; [auto |]. intros s [].
  - inversion D as [| ? ? D1 D2]; subst.
    apply do_ok in H. destruct H as ([data oks] & R & H). apply do_ok in H. destruct H as (o1 & P & H).
    apply do_ok in H. destruct H as ([o2 ok2] & L & H). apply ROk_inj in H. cbn [fst snd] in *. injection H as <- <-.
    destruct (IH _ _ _ D2 L) as (A & B & C). destruct (copy_spec _ _ _ _ P) as (A1 & A2 & A3 & A4). fold (from s) in A2, A3, A4.
    pose proof (psx_segment_length _ _ _ _ R) as Ln. cbn [fst] in Ln. rewrite Ln in A3, A4. fold (size (sg_data s)) in A3, A4. fold (till s) in A3, A4. fold (size out) in A3.
    split; [congruence |]. split.
    + intros k Hk F. inversion F as [| ? ? F1 F2]; subst. rewrite B by assumption. rewrite A4 by assumption.
      replace ((from s <=? k) && (k <? till s)) with false by lia. reflexivity.
    + intros s' [<- | I].
      * exists data, oks. split; [exact R |]. split; [intros E; apply andb_prop in E; apply E |].
        split; [exact Ln |]. split; [exact A2 |]. split; [exact A3 |]. intros k Hk. unfold size in Hk. rewrite Ln in Hk. fold (size (sg_data s)) in Hk.
        rewrite B; [| lia |].
        -- rewrite A4 by lia. unfold till. replace ((from s <=? from s + k) && (from s + k <? from s + size (sg_data s))) with true by lia. f_equal. lia.
        -- apply Forall_forall. intros s' I'. rewrite Forall_forall in D1. specialize (D1 s' I'). unfold till in D1 |- *. lia.
      * destruct (C s' I) as (d' & ok' & C1 & C2 & C3 & C4 & C5 & C6). exists d', ok'.
        split; [exact C1 |]. split; [intros E; apply andb_prop in E; apply C2, E |]. split; [exact C3 |]. split; [exact C4 |].
        split; [unfold size in C5 |- *; rewrite <- A1; exact C5 | exact C6].
Qed.
End Load.

Lemma ord_segments (at_ : pseg -> Z) ss : forall a, (forall s x, In (s, x) (combine ss (stack a (sizes_of ss))) -> at_ s = x) ->
  ForallOrdPairs (fun s s' => at_ s + size (sg_data s) <= at_ s') ss.
Proof.
  induction ss as [| s ss IH]; intros a H; [constructor |]. cbn [sizes_of map stack combine] in H. fold (sizes_of ss) in H.
  constructor; [| apply (IH (ceil4 (a + size (sg_data s)))); intros s' x I; apply H; right; exact I].
  apply Forall_forall. intros s' I. rewrite (H s a (or_introl eq_refl)).
  assert (X : exists x, In (s', x) (combine ss (stack (ceil4 (a + size (sg_data s))) (sizes_of ss)))).
  { destruct (segment_place (mkPfile ss []) (ceil4 (a + size (sg_data s))) s' I) as (x & X). exists x. exact X. }
  destruct X as (x & X). rewrite (H s' x (or_intror X)).
  assert (X' : In (size (sg_data s'), x) (combine (sizes_of ss) (stack (ceil4 (a + size (sg_data s))) (sizes_of ss)))).
  { unfold sizes_of at 1. rewrite map_combine_l. apply in_map_iff. exists (s', x). split; [reflexivity | exact X]. }
  assert (N : Forall (fun n => 0 <= n) (sizes_of ss)) by (apply Forall_forall; intros n In_; apply in_map_iff in In_; destruct In_ as (u & <- & _); apply size_nonneg).
  destruct (stack_bounds _ _ N _ _ X'). pose proof (ceil4_spec (a + size (sg_data s))). lia.
Qed.
Lemma sizes_nonneg ss : Forall (fun n => 0 <= n) (sizes_of ss).
Proof. apply Forall_forall. intros n I. apply in_map_iff in I. destruct I as (u & <- & _). apply size_nonneg. Qed.
Lemma file_sizes_nonneg f : fine_file f -> Forall (fun n => 0 <= n) (file_sizes f).
Proof. intros F. apply Forall_app. split; [apply sizes_nonneg | apply (ff_areas _ F)]. Qed.

(** Where the symbols of a file are looked up. *)
Definition walk_of (f : pfile) (a : Z) : list (psym * Z) := walk (offsets_at f a) (behind a (segment_sizes f)) (pf_symbols f).
Definition numbers_of (L : env) (f : pfile) (a : Z) : imap := rev (numbered L (offsets_at f a) (behind a (segment_sizes f)) (pf_symbols f)).

Lemma prefix_split (out out' : list Z) : (length out <= length out')%nat -> (forall k, 0 <= k < size out -> byte_at out' k = byte_at out k) ->
  exists tail, out' = out ++ tail.
Proof.
  intros Ln H. exists (skipn (length out) out'). rewrite <- (firstn_skipn (length out) out') at 1. f_equal.
  apply (nth_ext _ _ 0 0); [rewrite firstn_length; lia |]. intros n Hn. rewrite firstn_length in Hn.
  specialize (H (Z.of_nat n) ltac:(unfold size; lia)). unfold byte_at in H. rewrite Nat2Z.id in H. rewrite <- H.
  rewrite <- (firstn_skipn (length out) out') at 2. rewrite app_nth1 by (rewrite firstn_length; lia). reflexivity.
Qed.

Lemma psx_file_spec labels out a f p : fine_file f -> psx_file labels out a f = ROk p -> pt_ok p = true ->
  pt_address p = behind a (file_sizes f) /\
  (exists tail, pt_out p = out ++ tail /\ size tail = behind a (file_sizes f) - a /\
    (forall L, (forall n, labels n = L n) -> (forall y v, In (y, v) (walk_of f a) -> L (lower (ps_name y)) = Some v) ->
     forall s x, segment_at f a s x -> exists data, psx_segment (offsets_at f a) (numbers_of L f a) s = ROk (data, true) /\
       length data = length (sg_data s) /\ (forall k, 0 <= k < size (sg_data s) -> byte_at tail (x - a + k) = byte_at data k))) /\
  (forall n, ~ In n (names_of (pf_symbols f)) -> pt_labels p n = labels n) /\
  (NoDup (names_of (pf_symbols f)) -> forall y v, In (y, v) (walk_of f a) -> pt_labels p (lower (ps_name y)) = Some v).
Proof.
  intros Ff H O. unfold psx_file in H. apply do_ok in H. destruct H as ([m e] & P & H). apply do_ok in H. destruct H as (l & Y & H). cbn [fst snd] in *.
  destruct (place_segments_ok _ _ _ _ _ (ff_segments _ Ff) P) as (-> & ->). rewrite app_nil_r in *.
  change (sizes_of (pf_segments f)) with (segment_sizes f) in *. fold (offsets_at f a) in *.
  destruct (place_psymbols_ok _ _ _ _ Y) as (A & _ & B & C & _). cbn [lk_address lk_labels] in A, B, C. fold (area_sizes f) in A. rewrite <- behind_app in A. fold (file_sizes f) in A.
  fold (walk_of f a) in C.
  destruct (lk_ok l) eqn:Ok; [| apply ROk_inj in H; subst p; discriminate O].
  apply do_ok in H. destruct H as (rv & Rv & H). apply do_ok in H. destruct H as ([o ok] & Ld & H). apply ROk_inj in H. subst p. cbn [pt_ok pt_address pt_out pt_labels fst snd] in *. subst ok.
  destruct (reserve_spec _ _ _ Rv) as (Hn & ->). rewrite A in Hn.
  split; [exact A |]. split; [| split; [exact B | exact C]].
  assert (Od : ForallOrdPairs (fun s s' => size out + at_key (offsets_at f a) (sg_id s) - a + size (sg_data s) <= size out + at_key (offsets_at f a) (sg_id s') - a) (pf_segments f)).
  { assert (Q : ForallOrdPairs (fun s s' => at_key (offsets_at f a) (sg_id s) + size (sg_data s) <= at_key (offsets_at f a) (sg_id s')) (pf_segments f)).
    { apply (ord_segments _ _ a). intros s x I. apply offsets_found; [apply (ff_ids _ Ff) | exact I]. }
    clear - Q. induction Q as [| s ss F Q IH]; constructor; [| exact IH]. eapply Forall_impl; [| exact F]. intros s' Hs. cbn beta in Hs. lia. }
  destruct (load_segments_spec _ _ _ _ _ _ _ _ Od Ld) as (L1 & L2 & L3). rewrite app_length, repeat_length in L1.
  assert (Lo : forall s, In s (pf_segments f) -> a <= at_key (offsets_at f a) (sg_id s)).
  { intros s I. destruct (segment_place f a s I) as (x & X). rewrite (offsets_found f a s x (ff_ids _ Ff) X).
    assert (X' : In (size (sg_data s), x) (combine (segment_sizes f) (stack a (segment_sizes f)))).
    { unfold segment_sizes at 1. rewrite map_combine_l. apply in_map_iff. exists (s, x). split; [reflexivity | exact X]. }
    apply (stack_bounds _ _ (sizes_nonneg _) _ _ X'). }
  destruct (prefix_split out o) as (tail & ->); [lia | |].
  { intros k Hk. rewrite L2; [apply byte_app_l; exact Hk | lia |]. apply Forall_forall. intros s I. specialize (Lo s I). left. lia. }
  exists tail. split; [reflexivity |]. split; [rewrite app_length in L1; unfold size; lia |].
  intros L El Ew s x X. pose proof (segment_at_in _ _ _ _ X) as I. destruct (L3 s I) as (data & oks & S1 & S2 & S3 & S4 & S5 & S6). rewrite (S2 eq_refl) in S1.
  exists data. split.
  - rewrite <- S1. f_equal. rewrite (place_psymbols_numbers L _ _ _ _ Y Ok El Ew). cbn [lk_symbols lk_address]. rewrite app_nil_r. reflexivity.
  - split; [exact S3 |]. intros k Hk. specialize (Lo s I). rewrite (offsets_found f a s x (ff_ids _ Ff) X) in *. rewrite <- (S6 k) by (unfold size in *; lia).
    replace (size out + x - a + k) with (Z.of_nat (length out) + (x - a + k)) by (unfold size; lia). rewrite byte_app_r by lia. reflexivity.
Qed.

(** ** All files *)

Lemma defined_names_cons f fs : defined_names (f :: fs) = names_of (pf_symbols f) ++ defined_names fs.
Proof. unfold defined_names. cbn [flat_map]. rewrite filter_app, map_app. reflexivity. Qed.
Lemma walk_in_names f a y v : In (y, v) (walk_of f a) -> In (lower (ps_name y)) (names_of (pf_symbols f)).
Proof. intros I. rewrite <- (walk_names (offsets_at f a) _ (behind a (segment_sizes f))). apply in_map_iff. exists (y, v). split; [reflexivity | exact I]. Qed.
Lemma names_in_walk f a n : In n (names_of (pf_symbols f)) -> exists y v, In (y, v) (walk_of f a) /\ lower (ps_name y) = n.
Proof. intros I. rewrite <- (walk_names (offsets_at f a) _ (behind a (segment_sizes f))) in I. apply in_map_iff in I. destruct I as ([y v] & E & I). exists y, v. split; assumption. Qed.
Lemma files_names fs : forall a f b y v, In (f, b) (files_at a fs) -> In (y, v) (walk_of f b) -> In (lower (ps_name y)) (defined_names fs).
Proof.
  induction fs as [| g fs IH]; intros a f b y v; cbn [files_at]; [intros [] |]. rewrite defined_names_cons. intros [E | I] W; apply in_app_iff.
  - inversion E; subst. left. apply (walk_in_names _ _ _ _ W). - right. apply (IH _ _ _ _ _ I W).
Qed.
Lemma files_end_low fs : forall a, Forall fine_file fs -> a <= files_end a fs.
Proof.
  induction fs as [| f fs IH]; intros a F; cbn [files_end]; [lia |]. inversion F; subst. specialize (IH (behind a (file_sizes f)) H2).
  pose proof (behind_low (file_sizes f) a (file_sizes_nonneg f H1)). lia.
Qed.
Lemma NoDup_app_parts {A} (l1 l2 : list A) : NoDup (l1 ++ l2) -> NoDup l1 /\ NoDup l2 /\ (forall x, In x l1 -> ~ In x l2).
Proof.
  induction l1 as [| x l1 IH]; cbn [app]; [intros H; split; [constructor | split; [exact H | intros x []]] |].
  intros H. inversion H as [| ? ? H1 H2]; subst. destruct (IH H2) as (A1 & A2 & A3). split; [constructor; [intros I; apply H1, in_app_iff; left; exact I | exact A1] |].
  split; [exact A2 |]. intros y [<- | I]; [intros I; apply H1, in_app_iff; right; exact I | apply A3, I].
Qed.

Lemma psx_files_spec fs : forall labels out a r, Forall fine_file fs -> psx_files labels out a fs = ROk r -> pt_ok r = true ->
  pt_address r = files_end a fs /\
  (exists tail, pt_out r = out ++ tail /\ size tail = files_end a fs - a /\
    (NoDup (defined_names fs) -> forall L, (forall n, labels n = L n) -> (forall f b y v, In (f, b) (files_at a fs) -> In (y, v) (walk_of f b) -> L (lower (ps_name y)) = Some v) ->
     forall f b s x, In (f, b) (files_at a fs) -> segment_at f b s x ->
       exists data, psx_segment (offsets_at f b) (numbers_of L f b) s = ROk (data, true) /\ length data = length (sg_data s) /\
         (forall k, 0 <= k < size (sg_data s) -> byte_at tail (x - a + k) = byte_at data k))) /\
  (forall n, ~ In n (defined_names fs) -> pt_labels r n = labels n) /\
  (NoDup (defined_names fs) -> forall f b y v, In (f, b) (files_at a fs) -> In (y, v) (walk_of f b) -> pt_labels r (lower (ps_name y)) = Some v).
Proof.
  induction fs as [| f fs IH]; intros labels out a r F H O; cbn [psx_files files_at files_end] in *.
  - apply ROk_inj in H. subst r. cbn [pt_address pt_out pt_labels]. split; [reflexivity |]. split; [| split; [reflexivity | intros _ f b y v []]].
    exists []. rewrite app_nil_r. split; [reflexivity |]. split; [unfold size; cbn [length]; lia |]. intros _ L _ _ f b s x [].
  - inversion F as [| ? ? F1 F2]; subst. apply do_ok in H. destruct H as (p & P & H). apply do_ok in H. destruct H as (q & Q & H). apply ROk_inj in H. subst r.
    cbn [pt_address pt_out pt_labels pt_ok] in *. apply andb_prop in O. destruct O as (O1 & O2).
    destruct (psx_file_spec _ _ _ _ _ F1 P O1) as (A1 & (t1 & A2 & A3 & A4) & A5 & A6). rewrite A1, A2 in Q.
    destruct (IH _ _ _ _ F2 Q O2) as (B1 & (t2 & B2 & B3 & B4) & B5 & B6). rewrite defined_names_cons.
    pose proof (behind_low (file_sizes f) a (file_sizes_nonneg f F1)) as Lb.
    split; [exact B1 |]. split; [| split].
    + exists (t1 ++ t2). rewrite B2, app_assoc. split; [reflexivity |]. split; [unfold size in *; rewrite app_length; lia |].
      intros N L El Ew. destruct (NoDup_app_parts _ _ N) as (N1 & N2 & N3). intros g b s x [E | I] X.
      * inversion E; subst g b. destruct (A4 L El (fun y v W => Ew f a y v (or_introl eq_refl) W) s x X) as (data & D1 & D2 & D3).
        exists data. split; [exact D1 |]. split; [exact D2 |]. intros k Hk. rewrite <- (D3 k Hk). apply byte_app_l.
        assert (X' : In (size (sg_data s), x) (combine (segment_sizes f) (stack a (segment_sizes f)))).
        { unfold segment_sizes at 1. rewrite map_combine_l. apply in_map_iff. exists (s, x). split; [reflexivity | exact X]. }
        destruct (stack_bounds _ _ (sizes_nonneg _) _ _ X') as (Y1 & Y2). fold (segment_sizes f) in Y2. unfold sizes_of in Y2. fold (segment_sizes f) in Y2.
        pose proof (behind_low (area_sizes f) (behind a (segment_sizes f)) (ff_areas _ F1)) as La. rewrite <- behind_app in La. fold (file_sizes f) in La. unfold size in *. lia.
      * assert (El' : forall n, pt_labels p n = L n).
        { intros n. destruct (in_dec (list_eq_dec Z.eq_dec) n (names_of (pf_symbols f))) as [In_ | Nin].
          - destruct (names_in_walk f a n In_) as (y & v & W & <-). rewrite (A6 N1 y v W). symmetry. apply (Ew f a y v (or_introl eq_refl) W).
          - rewrite (A5 n Nin). apply El. }
        destruct (B4 N2 L El' (fun g b y v J W => Ew g b y v (or_intror J) W) g b s x I X) as (data & D1 & D2 & D3).
        exists data. split; [exact D1 |]. split; [exact D2 |]. intros k Hk. rewrite <- (D3 k Hk).
        replace (x - a + k) with (Z.of_nat (length t1) + (x - behind a (file_sizes f) + k)) by (unfold size in A3; lia). apply byte_app_r.
        assert (Lx : behind a (file_sizes f) <= x); [| lia].
        assert (X' : In (size (sg_data s), x) (combine (segment_sizes g) (stack b (segment_sizes g)))).
        { unfold segment_sizes at 1. rewrite map_combine_l. apply in_map_iff. exists (s, x). split; [reflexivity | exact X]. }
        destruct (stack_bounds _ _ (sizes_nonneg _) _ _ X') as (Y1 & _).
        assert (Lf : forall c hs, Forall fine_file hs -> In (g, b) (files_at c hs) -> c <= b).
        { clear. intros c hs. revert c. induction hs as [| h hs IH]; intros c Fh; cbn [files_at]; [intros [] |]. inversion Fh; subst. intros [E | I]; [inversion E; lia |].
          specialize (IH _ H2 I). pose proof (behind_low (file_sizes h) c (file_sizes_nonneg h H1)). lia. }
        specialize (Lf _ _ F2 I). lia.
    + intros n Nn. rewrite B5 by (intros I; apply Nn, in_app_iff; right; exact I). apply A5. intros I. apply Nn, in_app_iff. left. exact I.
    + intros N. destruct (NoDup_app_parts _ _ N) as (N1 & N2 & N3). intros g b y v [E | I] W.
      * inversion E; subst g b. rewrite B5 by (apply N3, (walk_in_names _ _ _ _ W)). apply (A6 N1 y v W).
      * apply (B6 N2 g b y v I W).
Qed.

(** ** An import that is settled *)

Lemma import_parts labels A fs r : psx_import labels A fs = ROk r -> exists q, psx_files labels [] (s32 A) fs = ROk q /\
  pt_labels q = pt_labels r /\ pt_out q = pt_out r /\ pt_ok q = pt_ok r /\ pt_address r = pt_address q - s32 A.
Proof. unfold psx_import. intros H. apply do_ok in H. destruct H as (q & Q & H). apply ROk_inj in H. subst r. exists q. repeat split; assumption. Qed.

Lemma import_labels labels A fs r : Forall fine_file fs -> psx_import labels A fs = ROk r -> pt_ok r = true ->
  pt_address r = files_end (s32 A) fs - s32 A /\ size (pt_out r) = files_end (s32 A) fs - s32 A /\
  (forall n, ~ In n (defined_names fs) -> pt_labels r n = labels n) /\
  (NoDup (defined_names fs) -> forall f a y v, In (f, a) (files_at (s32 A) fs) -> In y (pf_symbols f) -> symbol_at f a y v ->
   pt_labels r (lower (ps_name y)) = Some v).
Proof.
  intros F H O. destruct (import_parts _ _ _ _ H) as (q & Q & El & Eo & Ek & Ea). rewrite <- Ek in O.
  destruct (psx_files_spec _ _ _ _ _ F Q O) as (B1 & (tail & B2 & B3 & _) & B5 & B6). rewrite El, Eo in *. rewrite B1 in Ea. cbn [app] in B2.
  split; [exact Ea |]. split; [rewrite B2; exact B3 |]. split; [exact B5 |]. intros N f a y v I Iy S. apply (B6 N f a y v I). apply symbol_walk; [| exact Iy | exact S].
  apply ff_ids. rewrite Forall_forall in F. apply F. clear - I. revert I. generalize (s32 A) as c. induction fs as [| g fs IH]; intros c; cbn [files_at]; [intros [] |].
  intros [E | I]; [inversion E; subst; left; reflexivity | right; apply (IH _ I)].
Qed.
Lemma files_in fs : forall c f a, In (f, a) (files_at c fs) -> In f fs.
Proof. induction fs as [| g fs IH]; intros c f a; cbn [files_at]; [intros [] |]. intros [E | I]; [inversion E; subst; left; reflexivity | right; apply (IH _ _ _ I)]. Qed.

Lemma settled_segment labels A fs out f a s x : settled labels A fs out -> In (f, a) (files_at (s32 A) fs) -> segment_at f a s x ->
  fine_file f /\ fine_segment s /\
  exists data, psx_segment (offsets_at f a) (numbers_of labels f a) s = ROk (data, true) /\ length data = length (sg_data s) /\
    (forall k, 0 <= k < size (sg_data s) -> byte_at out (x - s32 A + k) = byte_at data k).
Proof.
  intros St I X. destruct (se_import _ _ _ _ St) as (r & H & O & Eo & El). pose proof (se_fine _ _ _ _ St) as F. pose proof (se_names _ _ _ _ St) as N.
  destruct (import_parts _ _ _ _ H) as (q & Q & El' & Eo' & Ek & _). rewrite <- Ek in O.
  destruct (psx_files_spec _ _ _ _ _ F Q O) as (_ & (tail & B2 & _ & B4) & _ & B6). cbn [app] in B2.
  assert (Ff : fine_file f) by (rewrite Forall_forall in F; apply F, (files_in _ _ _ _ I)). split; [exact Ff |].
  split; [pose proof (ff_segments _ Ff) as Fs; rewrite Forall_forall in Fs; apply Fs, (segment_at_in _ _ _ _ X) |].
  assert (Ew : forall f b y v, In (f, b) (files_at (s32 A) fs) -> In (y, v) (walk_of f b) -> labels (lower (ps_name y)) = Some v).
  { intros g b y v J W. rewrite <- El, <- El'. apply (B6 N g b y v J W). }
  destruct (B4 N labels (fun n => eq_refl) Ew f a s x I X) as (data & D1 & D2 & D3). exists data. split; [exact D1 |]. split; [exact D2 |].
  rewrite <- Eo, <- Eo', B2. exact D3.
Qed.

Lemma numbers_found labels f a id v : fine_file f -> In (id, v) (numbered labels (offsets_at f a) (behind a (segment_sizes f)) (pf_symbols f)) -> at_key (numbers_of labels f a) id = v.
Proof.
  intros F I. apply at_key_in.
  - unfold numbers_of. rewrite map_rev. apply NoDup_rev. rewrite numbered_keys. exact (ff_symbols _ F).
  - unfold numbers_of. rewrite <- in_rev. exact I.
Qed.
Lemma target_refers f a labels r t t' : fine_file f -> target (offsets_at f a) (numbers_of labels f a) r = ROk t -> refers_to f a labels r t' ->
  t mod 4294967296 = t' mod 4294967296.
Proof.
  intros F T R. unfold target in T. destruct R as [s x K X Ei | y v K Iy Ei Sy | y v K Iy Ky L]; rewrite K in T.
  - apply do_ok in T. destruct T as (w & W & T). apply add_int_ok in W. apply add_int_ok in T. destruct W as (-> & _). destruct T as (-> & _).
    rewrite <- Ei, (offsets_found f a s x (ff_ids _ F) X). reflexivity.
  - apply add_int_ok in T. destruct T as (-> & _). rewrite (numbers_found labels f a (pr_id r) v F); [reflexivity |].
    apply (walk_numbered _ _ _ _ y); [apply symbol_walk; [apply (ff_ids _ F) | exact Iy | exact Sy] | exact Ei].
  - apply add_int_ok in T. destruct T as (-> & _). rewrite (numbers_found labels f a (pr_id r) (s32 v) F); [| apply (external_numbered _ _ _ y); assumption].
    pose proof (s32_mod v). lia.
Qed.
Lemma patched_mod b c t t' k : t mod 4294967296 = t' mod 4294967296 -> patched b c t k -> patched b c t' k.
Proof.
  intros E P. assert (X : exists d, t = t' + d * 4294967296) by (exists (t / 4294967296 - t' / 4294967296); lia). destruct X as (d & ->). clear E.
  destruct P as [P | P1 P2 | P1 P2 | P1 P2]; constructor; try assumption.
  - rewrite P. unfold u32. lia.
  - rewrite P2. replace ((t' + d * 4294967296) / 4) with (t' / 4 + d * 16 * 67108864) by lia. rewrite Z.add_assoc, Z_mod_plus_full. reflexivity.
  - rewrite P2. lia.
  - replace (sext16 (t' + d * 4294967296)) with (sext16 t') in P2 by (unfold sext16; replace ((t' + d * 4294967296) mod 65536) with (t' mod 65536) by lia; reflexivity).
    rewrite P2. unfold u32. lia.
Qed.

Lemma word_moved out data d o n : 0 <= o -> o + 4 <= n -> (forall k, 0 <= k < n -> byte_at out (d + k) = byte_at data k) -> word_at false out (d + o) = word_at false data o.
Proof. intros H1 H2 H. unfold word_at. rewrite <- !Z.add_assoc. rewrite !H by lia. reflexivity. Qed.

Lemma settled_word labels A fs out f a s x r t : settled labels A fs out -> In (f, a) (files_at (s32 A) fs) -> segment_at f a s x -> In r (sg_rels s) ->
  refers_to f a labels r t -> (pr_type r = UpperImmediate -> empty_halves s) -> patched (word_before s r) (word_after out A x r) t (pr_type r).
Proof.
  intros St I X Ir R Em. destruct (settled_segment _ _ _ _ _ _ _ _ St I X) as (Ff & Fs & data & D1 & D2 & D3).
  destruct (in_split _ _ Ir) as (pre & post & E).
  destruct (segment_word _ _ _ _ _ _ _ Fs D1 E) as (t' & T & P); [intros q Iq Kq Kr; apply (Em Kr q Iq Kq) |].
  unfold word_after. pose proof (fs_inside _ Fs) as Fi. rewrite Forall_forall in Fi. destruct (Fi r Ir) as (O1 & O2).
  rewrite (word_moved out data (x - s32 A) (pr_offset r) (size (sg_data s)) O1 O2 D3). apply (patched_mod _ _ t'); [| exact P]. apply (target_refers f a labels r); assumption.
Qed.
Lemma settled_pair labels A fs out f a s x pre hi mid lo post t : settled labels A fs out -> In (f, a) (files_at (s32 A) fs) -> segment_at f a s x ->
  sg_rels s = pre ++ hi :: mid ++ lo :: post -> pr_type hi = UpperImmediate -> pr_type lo = LowerImmediate -> Forall (fun r => pr_type r <> LowerImmediate) mid ->
  refers_to f a labels hi t ->
  pair_value (word_after out A x hi) (word_after out A x lo) = u32 (pair_value (word_before s hi) (word_before s lo) + t).
Proof.
  intros St I X E Kh Kl Fm R. destruct (settled_segment _ _ _ _ _ _ _ _ St I X) as (Ff & Fs & data & D1 & D2 & D3).
  destruct (segment_pair _ _ _ _ _ _ _ _ _ Fs D1 E Kh Kl Fm) as (t' & T & _ & P). pose proof (target_refers f a labels hi t' t Ff T R) as Em.
  pose proof (fs_inside _ Fs) as Fi. rewrite Forall_forall in Fi.
  assert (Ih : In hi (sg_rels s)) by (rewrite E; apply in_elt). assert (Il : In lo (sg_rels s)) by (rewrite E; apply in_app_iff; right; right; apply in_elt).
  destruct (Fi hi Ih) as (O1 & O2). destruct (Fi lo Il) as (O3 & O4). unfold word_after.
  rewrite (word_moved out data (x - s32 A) (pr_offset hi) (size (sg_data s)) O1 O2 D3), (word_moved out data (x - s32 A) (pr_offset lo) (size (sg_data s)) O3 O4 D3).
  rewrite P. unfold u32. rewrite <- Z.add_mod_idemp_r, Em, Z.add_mod_idemp_r by lia. reflexivity.
Qed.
Lemma settled_bytes labels A fs out f a s x : settled labels A fs out -> In (f, a) (files_at (s32 A) fs) -> segment_at f a s x ->
  forall k, 0 <= k < size (sg_data s) -> (forall r, In r (sg_rels s) -> k < pr_offset r \/ pr_offset r + 4 <= k) ->
  byte_at out (x - s32 A + k) = byte_at (sg_data s) k.
Proof.
  intros St I X k Hk O. destruct (settled_segment _ _ _ _ _ _ _ _ St I X) as (Ff & Fs & data & D1 & D2 & D3). rewrite (D3 k Hk). apply (segment_bytes _ _ _ _ Fs D1 k Hk O).
Qed.

(** ** No two blocks overlap *)

Lemma combine_app {A B} (l1 l2 : list A) : forall k1 k2 : list B, length l1 = length k1 -> combine (l1 ++ l2) (k1 ++ k2) = combine l1 k1 ++ combine l2 k2.
Proof. induction l1 as [| x l1 IHl]; intros [| y k1] k2 L; try discriminate; [reflexivity |]. cbn. rewrite IHl; [reflexivity |]. cbn in L. congruence. Qed.
Lemma blocks_stack fs : forall a, all_blocks a fs = combine (flat_map file_sizes fs) (stack a (flat_map file_sizes fs)).
Proof.
  unfold all_blocks. induction fs as [| f fs IH]; intros a; [reflexivity |]. cbn [files_at flat_map]. rewrite IH, stack_app. cbn [fst snd].
  rewrite combine_app; [reflexivity |]. rewrite stack_length. reflexivity.
Qed.
Lemma blocks_apart fs a : Forall fine_file fs -> ForallOrdPairs (fun b b' : Z * Z => snd b + fst b <= snd b') (all_blocks a fs).
Proof.
  intros F. rewrite blocks_stack. apply stack_order. induction F as [| f fs H F IH]; cbn [flat_map]; [constructor |]. apply Forall_app. split; [apply file_sizes_nonneg, H | exact IH].
Qed.
Lemma blocks_aligned fs a n x : a mod 4 = 0 -> In (n, x) (all_blocks a fs) -> x mod 4 = 0.
Proof. rewrite blocks_stack. intros H I. apply in_combine_r in I. apply (stack_aligned _ _ _ H I). Qed.
Lemma segment_block fs A f a s x : In (f, a) (files_at A fs) -> segment_at f a s x -> In (size (sg_data s), x) (all_blocks A fs).
Proof.
  intros I X. unfold all_blocks. apply in_flat_map. exists (f, a). split; [exact I |]. cbn [fst snd]. unfold file_sizes. rewrite stack_app.
  assert (X' : In (size (sg_data s), x) (combine (segment_sizes f) (stack a (segment_sizes f)))).
  { unfold segment_sizes at 1. rewrite map_combine_l. apply in_map_iff. exists (s, x). split; [reflexivity | exact X]. }
  rewrite combine_app by (rewrite stack_length; reflexivity). apply in_app_iff. left. exact X'.
Qed.
Lemma area_block fs A f a y x : In (f, a) (files_at A fs) -> area_at f a y x -> exists n, In (n, x) (all_blocks A fs) /\ area_size y = [n].
Proof.
  intros I X. unfold area_at, area_sizes in X. assert (Q : exists n, In (n, x) (combine (area_sizes f) (stack (behind a (segment_sizes f)) (area_sizes f))) /\ area_size y = [n]).
  { revert X. unfold area_sizes. generalize (behind a (segment_sizes f)) as c. generalize (pf_symbols f) as ys. induction ys as [| z ys IH]; intros c; cbn [filter flat_map]; [intros [] |].
    unfold is_area at 1. change (area_size z) with (match ps_kind z with BSS _ n => [n] | _ => [] end). destruct (ps_kind z) eqn:K; cbn [app]; try apply IH. cbn [stack combine]. intros [E | X].
    - inversion E; subst. exists space. split; [left; reflexivity | unfold area_size; rewrite K; reflexivity].
    - destruct (IH _ X) as (n & N & E). exists n. split; [right; exact N | exact E]. }
  destruct Q as (n & N & E). exists n. split; [| exact E]. unfold all_blocks. apply in_flat_map. exists (f, a). split; [exact I |]. cbn [fst snd]. unfold file_sizes. rewrite stack_app.
  rewrite combine_app by (rewrite stack_length; reflexivity). apply in_app_iff. right. exact N.
Qed.
Lemma alignment_start fs a n x : all_blocks a fs = (n, x) :: tl (all_blocks a fs) -> x = a.
Proof. rewrite blocks_stack. destruct (flat_map file_sizes fs) as [| m l]; cbn [stack combine tl]; [discriminate |]. intros H. inversion H. reflexivity. Qed.

(** ** Names that are defined already *)

Lemma prepare_reported valid labels es : forall fs ok f y, prepare valid labels es = ROk (Some (fs, ok)) -> In f fs -> In y (pf_symbols f) ->
  is_external y = false -> labels (lower (ps_name y)) <> None -> ok = false.
Proof.
  induction es as [| e es IH]; intros fs ok f y H If Iy Ey Ly; cbn [prepare] in H.
  - apply ROk_inj in H. inversion H; subst. destruct If.
  - apply do_ok in H. destruct H as ([g |] & _ & H); [| apply ROk_inj in H; discriminate]. apply do_ok in H. destruct H as ([[gs ok'] |] & P & H); [| apply ROk_inj in H; discriminate].
    apply ROk_inj in H. inversion H; subst. destruct If as [<- | If].
    + apply andb_false_iff. left. apply not_true_is_false. intros Fa. rewrite forallb_forall in Fa. specialize (Fa y Iy). unfold symbol_fine in Fa.
      apply andb_prop in Fa. destruct Fa as (_ & Fa). destruct (labels (lower (ps_name y))); [congruence | contradiction].
    + apply andb_false_iff. right. apply (IH gs ok' f y P If Iy Ey Ly).
Qed.
Lemma defined_reported valid labels name d fs ok f y : init valid labels name d = ROk (Some (fs, ok)) -> In f fs -> In y (pf_symbols f) ->
  is_external y = false -> labels (lower (ps_name y)) <> None -> ok = false.
Proof.
  unfold init. intros H. apply do_ok in H. destruct H as (es & _ & H). destruct es as [| e es]; [apply ROk_inj in H; discriminate |]. revert H. apply prepare_reported.
Qed.
