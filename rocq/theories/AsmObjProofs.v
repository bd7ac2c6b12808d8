(** Supporting proofs about programs that import object files. *)

Require Import ZArith List Bool String Lia.
From Verif Require Import Ints Res FileModel BytesSpec FileSpec AllocModel AsmModel AsmSpec AsmProofs AsmSimProofs AsmRunProofs AsmObjModel.
Require Verif.ElfModel Verif.ElfSpec Verif.ElfProofs.
Import ListNotations.
Local Open Scope Z_scope.

Definition no_ctors : nat -> Z -> option nat := fun _ _ => None.
Lemma labelled_none ps : forall i, labelled no_ctors i ps = [].
Proof. induction ps as [|p ps IH]; intros i; [reflexivity|]. cbn [labelled]. rewrite IH, app_nil_r. induction (ElfModel.p_offsets p); [reflexivity|exact IHl]. Qed.
Lemma elf_plain m fs number kinds : plain (elf_object m fs number kinds no_ctors).
Proof.
  intros L a r. unfold elf_object. destruct (ElfModel.relocate m (external number kinds L) a fs) as [[[[out size] ps] ok]| |]; [|discriminate|discriminate].
  intros H. injection H as <-. apply labelled_none.
Qed.
Lemma elf_solid m fs number kinds ctors : Forall ElfSpec.well_formed fs -> solid (elf_object m fs number kinds ctors).
Proof.
  intros W L a r. unfold elf_object. destruct (ElfModel.relocate m (external number kinds L) a fs) as [[[[out size] ps] ok]| |] eqn:R; [|discriminate|discriminate].
  intros H _. injection H as <-. cbn [ob_size ob_data]. symmetry. apply (ElfProofs.relocate_spec _ _ _ _ _ _ _ _ W R).
Qed.

(** Where the sections are does not depend on labels. *)
Lemma symbols_address offsets xs : forall out out' a r r', ElfModel.place_symbols offsets out a xs = ROk r -> ElfModel.place_symbols offsets out' a xs = ROk r' ->
  snd (fst r) = snd (fst r').
Proof.
  induction xs as [|x xs IH]; intros out out' a r r' H H'; cbn [ElfModel.place_symbols] in H, H'.
  - apply rok in H. apply rok in H'. subst. reflexivity.
  - destruct (ElfModel.ex_section x =? ElfModel.SHN_ABS); [|destruct (ElfModel.ex_section x =? ElfModel.SHN_COMMON)].
    + unbind H y E. unbind H' y' E'. apply rok in H. apply rok in H'. subst. cbn [fst snd]. exact (IH _ _ _ _ _ E E').
    + unbind H b Eb. unbind H' b' Eb'. rewrite Eb in Eb'. apply rok in Eb'. subst b'. unbind H o1 Eo. unbind H' o2 Eo'. unbind H y E. unbind H' y' E'. apply rok in H. apply rok in H'. subst. cbn [fst snd]. exact (IH _ _ _ _ _ E E').
    + unbind H y E. unbind H' y' E'. apply rok in H. apply rok in H'. subst. cbn [fst snd]. exact (IH _ _ _ _ _ E E').
Qed.
Lemma file_offsets m lb lb' out out' a f p p' : ElfModel.relocateFile m lb out a f = ROk p -> ElfModel.relocateFile m lb' out' a f = ROk p' ->
  ElfModel.p_offsets p = ElfModel.p_offsets p' /\ ElfModel.p_address p = ElfModel.p_address p'.
Proof.
  unfold ElfModel.relocateFile. intros H H'. unbind H pl E. unbind H' pl' E'. rewrite E in E'. apply rok in E'. subst pl'. destruct pl as [offsets next].
  unbind H r1 E1. unbind H' r1' E1'. unbind H x E2. unbind H' x' E2'. unbind H y E3. unbind H' y' E3'. apply rok in H. apply rok in H'. subst p p'. cbn [ElfModel.p_offsets ElfModel.p_address].
  split; [reflexivity|]. exact (symbols_address _ _ _ _ _ _ _ E3 E3').
Qed.
Lemma files_offsets m lb lb' fs : forall out out' a o1 n1 ps ok o1' n1' ps' ok',
  ElfModel.relocate_files m lb out a fs = ROk (o1, n1, ps, ok) -> ElfModel.relocate_files m lb' out' a fs = ROk (o1', n1', ps', ok') ->
  map ElfModel.p_offsets ps = map ElfModel.p_offsets ps'.
Proof.
  induction fs as [|f fs IH]; intros out out' a o1 n1 ps ok o1' n1' ps' ok' H H'; cbn [ElfModel.relocate_files] in H, H'.
  - apply rok in H. apply rok in H'. apply duo in H. destruct H as [H _]. apply duo in H. destruct H as [_ <-]. apply duo in H'. destruct H' as [H' _]. apply duo in H'. destruct H' as [_ <-]. reflexivity.
  - unbind H p E. unbind H' p' E'. destruct (file_offsets _ _ _ _ _ _ _ _ _ E E') as [Eo Ea]. unbind H r E1. unbind H' r' E1'. rewrite <- Ea in E1'.
    destruct r as [[[o2 n2] ps2] ok2]. destruct r' as [[[o2' n2'] ps2'] ok2'].
    apply rok in H. apply rok in H'. apply duo in H. destruct H as [H _]. apply duo in H. destruct H as [_ <-]. apply duo in H'. destruct H' as [H' _]. apply duo in H'. destruct H' as [_ <-].
    cbn [map]. rewrite Eo, (IH _ _ _ _ _ _ _ _ _ _ _ E1 E1'). reflexivity.
Qed.
Lemma relocate_offsets m lb lb' a fs out size ps ok out' size' ps' ok' : ElfModel.relocate m lb a fs = ROk (out, size, ps, ok) ->
  ElfModel.relocate m lb' a fs = ROk (out', size', ps', ok') -> map ElfModel.p_offsets ps = map ElfModel.p_offsets ps'.
Proof.
  unfold ElfModel.relocate. intros H H'. unbind H r E. unbind H' r' E'. destruct r as [[[o2 n2] ps2] ok2]. destruct r' as [[[o2' n2'] ps2'] ok2'].
  apply rok in H. apply rok in H'. apply duo in H. destruct H as [H _]. apply duo in H. destruct H as [_ <-]. apply duo in H'. destruct H' as [H' _]. apply duo in H'. destruct H' as [_ <-].
  exact (files_offsets _ _ _ _ _ _ _ _ _ _ _ _ _ _ _ E E').
Qed.
Lemma labelled_offsets ctors ps : forall ps' i, map ElfModel.p_offsets ps = map ElfModel.p_offsets ps' -> labelled ctors i ps = labelled ctors i ps'.
Proof.
  induction ps as [|p ps IH]; intros [|p' ps'] i H; try discriminate; [reflexivity|]. cbn [map] in H. injection H as H1 H2. cbn [labelled]. rewrite H1, (IH ps' (S i) H2). reflexivity.
Qed.
(** Each label is for one section. *)
Definition own_labels (ctors : nat -> Z -> option nat) : Prop := forall i j s t k, ctors i s = Some k -> ctors j t = Some k -> i = j /\ s = t.
Lemma labelled_in ctors ps : forall i k v, In (k, v) (labelled ctors i ps) -> exists j p s, (i <= j)%nat /\ nth_error ps (j - i) = Some p /\ In (s, v) (ElfModel.p_offsets p) /\ ctors j s = Some k.
Proof.
  induction ps as [|p ps IH]; intros i k v H; [destruct H|]. cbn [labelled] in H. apply in_app_iff in H. destruct H as [H|H].
  - apply in_flat_map in H. destruct H as ([s x] & Hs & H). cbn [fst snd] in H. destruct (ctors i s) as [k0|] eqn:E; [|destruct H]. destruct H as [H|[]]. injection H as -> ->.
    exists i, p, s. rewrite Nat.sub_diag. auto.
  - destruct (IH _ _ _ H) as (j & q & s & Hj & N & Hs & E). exists j, q, s. split; [lia|]. split; [|auto]. replace (j - i)%nat with (S (j - S i)) by lia. exact N.
Qed.
Lemma in_labelled ctors ps : forall i j p s v k, nth_error ps j = Some p -> In (s, v) (ElfModel.p_offsets p) -> ctors (i + j)%nat s = Some k -> In (k, v) (labelled ctors i ps).
Proof.
  induction ps as [|q ps IH]; intros i j p s v k N Hs E; [destruct j; discriminate|]. cbn [labelled]. apply in_app_iff. destruct j as [|j].
  - left. injection N as ->. apply in_flat_map. exists (s, v). split; [exact Hs|]. cbn [fst snd]. rewrite Nat.add_0_r in E. rewrite E. left. reflexivity.
  - right. apply (IH (S i) j p s v k N Hs). replace (S i + j)%nat with (i + S j)%nat by lia. exact E.
Qed.
Lemma labelled_nodup ctors ps : own_labels ctors -> Forall (fun p => NoDup (map fst (ElfModel.p_offsets p))) ps -> forall i, NoDup (map fst (labelled ctors i ps)).
Proof.
  intros O. induction ps as [|p ps IH]; intros F i; [constructor|]. cbn [labelled]. rewrite map_app. apply nodup_app. split; [|split].
  - pose proof (Forall_inv F) as N. cbv beta in N. clear - O N. revert N. generalize (ElfModel.p_offsets p). induction l as [|[s x] l IH]; intros N; [constructor|]. cbn [flat_map map fst snd] in *. apply NoDup_cons_iff in N. destruct N as [N1 N2].
    rewrite map_app. destruct (ctors i s) as [k|] eqn:E; [|exact (IH N2)]. cbn [map app fst]. constructor; [|exact (IH N2)].
    intros I0. apply N1. apply in_map_iff in I0. destruct I0 as ([k' v] & Ek & I0). cbn in Ek. subst k'. apply in_flat_map in I0. destruct I0 as ([t y] & It & I0). cbn [fst snd] in I0.
    destruct (ctors i t) as [k'|] eqn:E'; [|destruct I0]. destruct I0 as [I0|[]]. injection I0 as -> ->. destruct (O _ _ _ _ _ E E') as [_ <-]. apply in_map_iff. exists (s, v). auto.
  - exact (IH (Forall_inv_tail F) (S i)).
  - intros k I1 I2. apply in_map_iff in I1. destruct I1 as ([k1 v1] & E1 & I1). cbn in E1. subst k1. apply in_map_iff in I2. destruct I2 as ([k2 v2] & E2 & I2). cbn in E2. subst k2.
    apply in_flat_map in I1. destruct I1 as ([s x] & _ & I1). cbn [fst snd] in I1. destruct (ctors i s) as [k1|] eqn:E; [|destruct I1]. destruct I1 as [I1|[]]. injection I1 as -> _.
    destruct (labelled_in _ _ _ _ _ I2) as (j & q & t & Hj & _ & _ & E'). destruct (O _ _ _ _ _ E E') as [-> _]. lia.
Qed.
Lemma place_indices ss : forall a l n, ElfModel.place_sections a ss = ROk (l, n) -> map fst l = map ElfModel.se_index ss.
Proof.
  induction ss as [|s ss IH]; intros a l n H; cbn [ElfModel.place_sections] in H.
  - apply rok, duo in H. destruct H as [<- _]. reflexivity.
  - unbind H b Eb. unbind H r E. destruct r as [l1 n1]. apply rok, duo in H. destruct H as [<- _]. cbn [map fst]. rewrite (IH _ _ _ E). reflexivity.
Qed.
Lemma relocate_indices m lb fs : forall out a o1 n1 ps ok, ElfModel.relocate_files m lb out a fs = ROk (o1, n1, ps, ok) ->
  map (fun p => map fst (ElfModel.p_offsets p)) ps = map (fun f => map ElfModel.se_index (ElfModel.ef_sections f)) fs.
Proof.
  induction fs as [|f fs IH]; intros out a o1 n1 ps ok H; cbn [ElfModel.relocate_files] in H.
  - apply rok in H. apply duo in H. destruct H as [H _]. apply duo in H. destruct H as [_ <-]. reflexivity.
  - unbind H p E. unbind H r E1. destruct r as [[[o2 n2] ps2] ok2]. apply rok in H. apply duo in H. destruct H as [H _]. apply duo in H. destruct H as [_ <-].
    cbn [map]. rewrite (IH _ _ _ _ _ _ E1). f_equal. unfold ElfModel.relocateFile in E. unbind E pl E2. destruct pl as [offsets next]. unbind E r1 E3. unbind E x E4. unbind E y E5.
    apply rok in E. subst p. cbn [ElfModel.p_offsets]. exact (place_indices _ _ _ _ E2).
Qed.
Lemma elf_sectioned m fs number kinds ctors : Forall ElfSpec.well_formed fs -> own_labels ctors -> sectioned (elf_object m fs number kinds ctors).
Proof.
  intros W O. split.
  - intros L L' a r r'. unfold elf_object. destruct (ElfModel.relocate m (external number kinds L) a fs) as [[[[out size] ps] ok]| |] eqn:R; [|discriminate|discriminate].
    destruct (ElfModel.relocate m (external number kinds L') a fs) as [[[[out' size'] ps'] ok']| |] eqn:R'; [|discriminate|discriminate].
    intros H H'. injection H as <-. injection H' as <-. cbn [ob_sections]. apply labelled_offsets. exact (relocate_offsets _ _ _ _ _ _ _ _ _ _ _ _ _ R R').
  - intros L a r. unfold elf_object. destruct (ElfModel.relocate m (external number kinds L) a fs) as [[[[out size] ps] ok]| |] eqn:R; [|discriminate|discriminate].
    intros H. injection H as <-. cbn [ob_sections]. apply labelled_nodup; [exact O|]. unfold ElfModel.relocate in R. unbind R r E. destruct r as [[[o2 n2] ps2] ok2].
    apply rok in R. apply duo in R. destruct R as [R _]. apply duo in R. destruct R as [_ <-]. pose proof (relocate_indices _ _ _ _ _ _ _ _ _ E) as Q.
    apply Forall_forall. intros p Hp. assert (I0 : In (map fst (ElfModel.p_offsets p)) (map (fun f => map ElfModel.se_index (ElfModel.ef_sections f)) fs)).
    { rewrite <- Q. apply in_map_iff. exists p. auto. }
    apply in_map_iff in I0. destruct I0 as (f & Ef & If). rewrite <- Ef. rewrite Forall_forall in W. exact (ElfSpec.wf_index _ (W f If)).
Qed.
(** The table has as many values each time. *)
Lemma table_fixed l : fixed_size (ctor_table l).
Proof. intros t v. unfold ctor_table. cbn [fst]. induction l as [|x l IH]; [reflexivity|]. cbn [flat_map app List.length]. rewrite IH. reflexivity. Qed.
Lemma stub_tabled name body table l : tabled (ctor_stub name body table l).
Proof. constructor. apply table_fixed. Qed.

Lemma given_in number names : forall values n v k, In (n, v) (combine names values) -> number n = Some k -> In (k, v) (given_to number names values).
Proof.
  induction names as [|x names IH]; intros values n v k; [intros []|]. destruct values as [|y values]; [intros []|]. cbn [combine In given_to]. intros [E|I] Hn.
  - injection E as -> ->. rewrite Hn. left. reflexivity.
  - specialize (IH _ _ _ _ I Hn). destruct (number x); [right; exact IH|exact IH].
Qed.

(** The symbols of the files, one after the other *)
Lemma combine_files (fs : list ElfModel.efile) : forall ps : list ElfModel.placed, List.length ps = List.length fs ->
  (forall f p, In (f, p) (combine fs ps) -> List.length (ElfModel.p_symbols p) = List.length (filter ElfModel.is_exported (ElfModel.ef_symtab f))) ->
  forall f p y v, In (f, p) (combine fs ps) -> In (y, v) (combine (filter ElfModel.is_exported (ElfModel.ef_symtab f)) (ElfModel.p_symbols p)) ->
  In (ElfModel.sy_name y, v) (combine (exported_names fs) (flat_map ElfModel.p_symbols ps)).
Proof.
  assert (A : forall (a1 a2 : list string) (b1 b2 : list Z), List.length a1 = List.length b1 -> combine (a1 ++ a2) (b1 ++ b2) = combine a1 b1 ++ combine a2 b2).
  { induction a1 as [|x a1 IH]; intros a2 [|y b1] b2 H; try discriminate; [reflexivity|]. cbn. f_equal. apply IH. injection H as H. exact H. }
  assert (M : forall (ys : list ElfModel.esym) (vs : list Z) y v, In (y, v) (combine ys vs) -> In (ElfModel.sy_name y, v) (combine (map ElfModel.sy_name ys) vs)).
  { induction ys as [|x ys IH]; intros [|z vs] y v; cbn; try tauto. intros [E|I]; [left; congruence|right; auto]. }
  unfold exported_names. induction fs as [|g fs IH]; intros [|q ps] HL Hn f p y v I; try discriminate; [destruct I|].
  cbn [flat_map combine map]. rewrite map_app, A by (rewrite map_length; symmetry; apply Hn; left; reflexivity). intros J. apply in_app_iff. destruct I as [E|I].
  - injection E as -> ->. left. apply M. exact J.
  - right. apply (IH ps) with (f := f) (p := p); [injection HL as HL; exact HL|intros; apply Hn; right; assumption|exact I|exact J].
Qed.

(** The address of a section is the one kept for its index. *)
Lemma nth_map {A B} (g : A -> B) l : forall i x, nth_error l i = Some x -> nth_error (map g l) i = Some (g x).
Proof. induction l as [|a l IH]; intros [|i] x H; try discriminate; [injection H as ->; reflexivity|exact (IH i x H)]. Qed.
Lemma combine_pairs (ss : list ElfModel.esec) : forall l : list (Z * Z), map fst l = map ElfModel.se_index ss -> forall s v, In (s, v) (combine ss (map snd l)) -> In (ElfModel.se_index s, v) l.
Proof.
  induction ss as [|s0 ss IH]; intros [|[j x] l] H s v I0; try discriminate; [destruct I0|]. cbn [map fst snd combine] in *. injection H as H1 H2. destruct I0 as [I0|I0].
  - injection I0 as -> ->. left. congruence.
  - right. exact (IH l H2 s v I0).
Qed.
Lemma placed_offset m lb a fs out size ps ok i f q s v : ElfModel.relocate m lb a fs = ROk (out, size, ps, ok) -> nth_error fs i = Some f -> nth_error ps i = Some q ->
  ElfSpec.placed_at f q s v -> In (ElfModel.se_index s, v) (ElfModel.p_offsets q).
Proof.
  unfold ElfModel.relocate. intros R If Iq Hs. unbind R r E. destruct r as [[[o2 n2] ps2] ok2]. apply rok in R. apply duo in R. destruct R as [R _]. apply duo in R. destruct R as [_ <-].
  pose proof (relocate_indices _ _ _ _ _ _ _ _ _ E) as Q. apply (nth_map (fun f => map ElfModel.se_index (ElfModel.ef_sections f))) in If. apply (nth_map (fun p => map fst (ElfModel.p_offsets p))) in Iq.
  rewrite Q, If in Iq. injection Iq as Iq. apply (combine_pairs (ElfModel.ef_sections f)); [symmetry; exact Iq|exact Hs].
Qed.

(** An import anywhere in a program *)
Lemma object_placed files L P ctor m fs number kinds ctors p1 p3 : Forall ElfSpec.well_formed fs ->
  place files L P (CObj ctor (elf_object m fs number kinds ctors)) p1 p3 ->
  exists p2 x out size ps,
    place files L P ctor p1 p2 /\
    p_pos p2 = Some x /\ ElfModel.relocate m (external number kinds L) (po_addr x) fs = ROk (out, size, ps, true) /\ emits files out p2 p3 /\
    (forall f q y v k, In (f, q) (combine fs ps) -> In (y, v) (combine (filter ElfModel.is_exported (ElfModel.ef_symtab f)) (ElfModel.p_symbols q)) ->
      number (ElfModel.sy_name y) = Some k -> l_val (L k) = v) /\
    forall i f q s v k, nth_error fs i = Some f -> nth_error ps i = Some q -> ElfSpec.placed_at f q s v -> ctors i (ElfModel.se_index s) = Some k -> l_val (L k) = v.
Proof.
  intros W P3. set (o := elf_object m fs number kinds ctors) in *.
  inversion P3 as [| | | | | | | | | | | | | | | | | | | | | | | | | |ct o' r q1 p2 q3 Pc Eo Er Fv Em]; subst ct o' q1 q3.
  assert (X : exists x, p_pos p2 = Some x /\ v_virtual (sees L p2) = po_addr x).
  { inversion Em as [q f g h v d' new E0]. unfold sees. rewrite E0. eexists. split; reflexivity. }
  destruct X as (x & Ex & Ev). rewrite Ev in Eo. unfold o, elf_object in Eo.
  destruct (ElfModel.relocate m (external number kinds L) (po_addr x) fs) as [[[[out size] ps] ok]| |] eqn:R; [|discriminate|discriminate].
  injection Eo as <-. cbn [ob_error ob_data ob_symbols ob_sections] in *. destruct ok; [|discriminate].
  exists p2, x, out, size, ps. do 4 (split; [assumption|]).
  rewrite Forall_forall in Fv. split.
  2:{ intros i f q s v k If Iq Hs Hk. apply (Fv (k, v)). apply in_app_iff. right. apply (in_labelled ctors ps 0 i q (ElfModel.se_index s) v k Iq); [|exact Hk].
      eapply placed_offset; [exact R|exact If|exact Iq|exact Hs]. }
  intros f q y v k I J Hk. specialize (Fv (k, v)). cbn [fst snd] in Fv. apply Fv. apply in_app_iff. left.
  destruct (ElfProofs.relocate_spec _ _ _ _ _ _ _ _ W R) as (Hl & _). eapply given_in; [|exact Hk].
  apply (combine_files fs ps Hl) with (f := f) (p := q); [|exact I|exact J].
  intros f0 q0 I0. exact (ElfProofs.exported_all m _ _ fs out size ps true f0 q0 W R I0).
Qed.

(** An import at the top level of an accepted program *)
Lemma import_placed files writable own_big c1 c2 ctor m fs number kinds ctors w w' : Forall ElfSpec.well_formed fs ->
  fresh files (CSeq c1 (CSeq (CObj ctor (elf_object m fs number kinds ctors)) c2)) w ->
  run writable own_big (CSeq c1 (CSeq (CObj ctor (elf_object m fs number kinds ctors)) c2)) w = ROk (true, w') ->
  exists P p p1 p2 p3 p4 x out size ps,
    p_pos p = None /\ p_disk p = f_disk (w_fm w) /\ place files (w_labels w') P c1 p p1 /\ place files (w_labels w') P ctor p1 p2 /\
    p_pos p2 = Some x /\ ElfModel.relocate m (external number kinds (w_labels w')) (po_addr x) fs = ROk (out, size, ps, true) /\
    emits files out p2 p3 /\ place files (w_labels w') P c2 p3 p4 /\ p_disk p4 = f_disk (w_fm w') /\
    (forall f q y v k, In (f, q) (combine fs ps) -> In (y, v) (combine (filter ElfModel.is_exported (ElfModel.ef_symtab f)) (ElfModel.p_symbols q)) ->
      number (ElfModel.sy_name y) = Some k -> l_val (w_labels w' k) = v) /\
    forall i f q s v k, nth_error fs i = Some f -> nth_error ps i = Some q -> ElfSpec.placed_at f q s v -> ctors i (ElfModel.se_index s) = Some k -> l_val (w_labels w' k) = v.
Proof.
  intros W Fr H. destruct (run_produces files writable own_big (fr_headers _ _ _ Fr) _ _ _ Fr H) as (P & p & p' & Hp & Hd & _ & _ & Pl & Hd' & _).
  inversion Pl as [|a b q1 p1 q3 P1 P2| | | | | | | | | | | | | | | | | | | | | | | | |]; subst a b q1 q3.
  inversion P2 as [|a b q1 p3 q3 P3 P4| | | | | | | | | | | | | | | | | | | | | | | | |]; subst a b q1 q3.
  destruct (object_placed _ _ _ _ _ _ _ _ _ _ _ W P3) as (p2 & x & out & size & ps & Pc & Ex & R & Em & K1 & K2).
  exists P, p, p1, p2, p3, p', x, out, size, ps. do 9 (split; [assumption|]). split; [exact K1|exact K2].
Qed.

Lemma import_symbols files writable own_big c1 c2 ctor m fs number kinds ctors w w' : Forall ElfSpec.well_formed fs ->
  fresh files (CSeq c1 (CSeq (CObj ctor (elf_object m fs number kinds ctors)) c2)) w ->
  run writable own_big (CSeq c1 (CSeq (CObj ctor (elf_object m fs number kinds ctors)) c2)) w = ROk (true, w') ->
  exists x out ps, (exists size, ElfModel.relocate m (external number kinds (w_labels w')) (po_addr x) fs = ROk (out, size, ps, true)) /\
    (exists p2 p3, p_pos p2 = Some x /\ emits files out p2 p3) /\
    forall f q s x0 y k, In (f, q) (combine fs ps) -> In y (ElfModel.ef_symtab f) -> ElfModel.is_exported y = true ->
      ElfSpec.placed_at f q s x0 -> ElfModel.sy_shndx y = ElfModel.se_index s -> number (ElfModel.sy_name y) = Some k ->
      l_val (w_labels w' k) = x0 + ElfSpec.entry m y.
Proof.
  intros W Fr H. destruct (import_placed _ _ _ _ _ _ _ _ _ _ _ _ _ W Fr H) as (P & p & p1 & p2 & p3 & p4 & x & out & size & ps & _ & _ & _ & _ & Hp & R & Em & _ & _ & K & _).
  exists x, out, ps. split; [exists size; exact R|]. split; [exists p2, p3; auto|]. intros f q s x0 y k I J Ey Pl Es Hk.
  pose proof (ElfProofs.exported_all m _ _ fs out size ps true f q W R I) as Hl.
  assert (N : In y (filter ElfModel.is_exported (ElfModel.ef_symtab f))) by (apply filter_In; auto).
  destruct (In_nth_error _ _ N) as (i & Ei). destruct (nth_error (ElfModel.p_symbols q) i) as [v|] eqn:Ev.
  2:{ apply nth_error_None in Ev. assert (i < List.length (filter ElfModel.is_exported (ElfModel.ef_symtab f)))%nat by (apply nth_error_Some; congruence). lia. }
  assert (C : In (y, v) (combine (filter ElfModel.is_exported (ElfModel.ef_symtab f)) (ElfModel.p_symbols q))).
  { clear - Ei Ev. revert i Ei Ev. generalize (filter ElfModel.is_exported (ElfModel.ef_symtab f)) (ElfModel.p_symbols q). induction l as [|a l IH]; intros l0 [|i] E1 E2; try discriminate.
    - destruct l0; [discriminate|]. left. cbn in E1, E2. congruence.
    - destruct l0; [discriminate|]. right. eapply IH; [exact E1|exact E2]. }
  rewrite (K f q y v k I C Hk). assert (Wf : ElfSpec.well_formed f) by (rewrite Forall_forall in W; apply W; exact (in_combine_l _ _ _ _ I)).
  eapply (ElfProofs.exported_address m (external number kinds (w_labels w')) (po_addr x) fs out size ps true f q y v); [exact W|exact R|exact I|exact C| |].
  - rewrite Es. assert (Hs : In s (ElfModel.ef_sections f)) by exact (in_combine_l _ _ _ _ Pl). pose proof (ElfSpec.wf_special _ Wf s Hs) as B. unfold ElfModel.SHN_COMMON. lia.
  - apply ElfSpec.sa_section with (s := s); assumption.
Qed.

(** The table of the function that calls the constructors *)
Lemma import_table files writable own_big c1 c2 name body table l m fs number kinds ctors w w' : Forall ElfSpec.well_formed fs ->
  fresh files (CSeq c1 (CSeq (CObj (ctor_stub name body table l) (elf_object m fs number kinds ctors)) c2)) w ->
  run writable own_big (CSeq c1 (CSeq (CObj (ctor_stub name body table l) (elf_object m fs number kinds ctors)) c2)) w = ROk (true, w') ->
  exists p1 p2 p3 y x out size ps,
    p_pos p1 = Some y /\ l_val (w_labels w' table) = po_addr y /\ p_pos p2 = Some x /\
    ElfModel.relocate m (external number kinds (w_labels w')) (po_addr x) fs = ROk (out, size, ps, true) /\ emits files out p2 p3 /\
    forall l', Forall2 (fun e a => snd a = snd e /\ exists i f q s, nth_error fs i = Some f /\ nth_error ps i = Some q /\
                 ElfSpec.placed_at f q s (fst a) /\ ctors i (ElfModel.se_index s) = Some (fst e)) l l' ->
      emits files (unit_bytes (p_big p1) (map (fun v => (4%nat, v)) (flat_map (fun a : Z * Z => [fst a; s64 (fst a + snd a)]) l'))) p1 p2.
Proof.
  intros W Fr H. destruct (import_placed _ _ _ _ _ _ _ _ _ _ _ _ _ W Fr H) as (P & p & p0 & p2 & p3 & p4 & x & out & size & ps & _ & _ & _ & Pc & Hp & R & Em & _ & _ & _ & K).
  unfold ctor_stub in Pc. set (L := w_labels w') in *.
  inversion Pc as [| | | |lf cf q1 q2 Lf Pf| | | | | | | | | | | | | | | | | | | | | |]; subst lf cf q1 q2.
  inversion Pf as [|a b q1 pb q3 P1 P2| | | | | | | | | | | | | | | | | | | | | | | | |]; subst a b q1 q3.
  inversion P2 as [|a b q1 pt q3 P3 P4| | | | | | | | | | | | | | | | | | | | | | | | |]; subst a b q1 q3.
  inversion P3 as [| |lt q1 Lt| | | | | | | | | | | | | | | | | | | | | | | |]; subst lt q1 pt.
  inversion P4 as [| | | | | | | | | | | | |u f vs q1 q2 Ef Ed| | | | | | | | | | | | |]; subst u f q1 q2.
  assert (X : exists y, p_pos pb = Some y /\ v_virtual (sees L pb) = po_addr y).
  { inversion Ed as [q f g h v d' new E0]. unfold sees. rewrite E0. eexists. split; reflexivity. }
  destruct X as (y & Ey & Ev). exists pb, p2, p3, y, x, out, size, ps. split; [exact Ey|]. split; [rewrite Lt; cbn [l_val]; exact Ev|]. do 3 (split; [assumption|]).
  intros l' F. assert (Evs : vs = flat_map (fun a : Z * Z => [fst a; s64 (fst a + snd a)]) l').
  { unfold ctor_table in Ef. injection Ef as <-. assert (Vl : v_labels (sees L pb) = L) by (unfold sees; destruct (p_pos pb); reflexivity). rewrite Vl.
    clear - F K. induction F as [|[k n] [v n'] l l' (En & i & f & q & s & If & Iq & Hs & Hk) F IH]; [reflexivity|]. cbn [fst snd] in *. subst n'.
    cbn [flat_map fst snd app]. rewrite (K i f q s v k If Iq Hs Hk), IH. reflexivity. }
  rewrite <- Evs. exact Ed.
Qed.
