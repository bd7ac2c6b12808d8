(** Importing objects without relocations always succeeds. *)

Require Import ZArith Lia Bool String List.
Require Import ZifyBool.
Require Import Verif.Ints Verif.IntsLemmas Verif.Res Verif.ElfModel Verif.ElfSpec Verif.ElfProofs.
Import ListNotations.
Local Open Scope Z_scope.

Lemma load_total m labels big symtab offs ds start ss : forall out,
  (forall s, In s ss -> se_nobits s = false -> se_rels s = [] /\ 0 <= ds + offset_of offs (se_index s) - start /\
     ds + offset_of offs (se_index s) - start + Z.of_nat (length (se_data s)) <= Z.of_nat (length out)) ->
  exists out', load_sections m labels big symtab offs out ds start ss = ROk (out', true).
Proof.
  induction ss as [| s ss IH]; intros out H; cbn [load_sections]; [eauto |].
  destruct (se_nobits s) eqn:N; [apply IH; intros s' I; apply H; right; exact I |].
  destruct (H s (or_introl eq_refl) N) as (R & A & B).
  unfold relocate_section. rewrite R. cbn [relocations rbind]. assert (F : finish m [] = ROk ([], true)) by (destruct m; reflexivity). rewrite F. cbn [rbind fst snd app apply_actions andb].
  destruct (copy_to out (ds + offset_of offs (se_index s) - start) (se_data s)) as [o | |] eqn:C.
  2, 3: unfold copy_to in C; destruct ((ds + offset_of offs (se_index s) - start <? 0) || (Z.of_nat (length out) <? ds + offset_of offs (se_index s) - start + Z.of_nat (length (se_data s)))) eqn:E; [lia | discriminate].
  cbn [rbind]. destruct (copy_spec _ _ _ _ C) as (L & _). destruct (IH o) as (o' & O).
  { intros s' I N'. rewrite L. apply H; [right; exact I | exact N']. }
  rewrite O. cbn [rbind fst snd]. eauto.
Qed.

Lemma symbols_total offs xs : forall out a, (forall x, In x xs -> ex_section x = SHN_COMMON -> 0 < ex_relative x /\ 0 <= ex_size x) ->
  exists r, place_symbols offs out a xs = ROk r.
Proof.
  induction xs as [| x xs IH]; intros out a H; cbn [place_symbols]; [eauto |].
  assert (H' : forall y, In y xs -> ex_section y = SHN_COMMON -> 0 < ex_relative y /\ 0 <= ex_size y) by (intros y I; apply H; right; exact I).
  destruct (ex_section x =? SHN_ABS). { destruct (IH out a H') as (r & ->). cbn [rbind]. eauto. }
  destruct (Z.eqb_spec (ex_section x) SHN_COMMON) as [E | E].
  - destruct (H x (or_introl eq_refl) E) as (A & B). destruct (align_up_total a _ A) as (y & Y). rewrite Y. cbn [rbind].
    pose proof (align_up_spec _ _ _ A Y) as Sp. unfold reserve. destruct (y + ex_size x - a <? 0) eqn:Q; [lia |]. cbn [rbind].
    destruct (IH (out ++ repeat 0 (Z.to_nat (y + ex_size x - a))) (y + ex_size x) H') as (r & ->). cbn [rbind]. eauto.
  - destruct (IH out a H') as (r & ->). cbn [rbind]. eauto.
Qed.

Lemma file_total m labels out a f : well_formed f -> (forall s, In s (ef_sections f) -> se_rels s = []) ->
  exists p, relocateFile m labels out a f = ROk p /\ p_ok p = true.
Proof.
  intros W R. unfold relocateFile. destruct (place_sections_total (ef_sections f) a (wf_align f W)) as ([offs next] & P). rewrite P. cbn [rbind].
  assert (Q : forall s, In s (ef_sections f) -> 0 < se_align s /\ 0 <= se_size s < 2147483648) by (intros s I; split; [apply (wf_align f W s I) | apply (wf_size f W s I)]).
  destruct (place_sections_spec _ _ _ _ Q P) as (Ix & L).
  assert (Fs : Forall (fun b : Z * Z => 0 <= snd b) (map (fun s => (se_align s, se_size s)) (ef_sections f))).
  { apply Forall_forall. intros b I. apply in_map_iff in I. destruct I as (s & <- & I). cbn [snd]. apply (Q s I). }
  destruct (laid_out_bounds _ _ _ _ Fs L) as (Ge & Bd).
  unfold reserve. destruct (next - a <? 0) eqn:E; [lia |]. cbn [rbind].
  destruct (load_total m labels (ef_big f) (ef_symtab f) offs (Z.of_nat (length out)) a (ef_sections f) (out ++ repeat 0 (Z.to_nat (next - a)))) as (o & O).
  { intros s I N. split; [apply R, I |]. rewrite app_length, repeat_length. rewrite (wf_data f W s I N).
    assert (In ((se_align s, se_size s), offset_of offs (se_index s)) (combine (map (fun s => (se_align s, se_size s)) (ef_sections f)) (map snd offs))).
    { rewrite (offsets_map _ _ Ix (wf_index f W)). rewrite combine_map. apply in_map_iff. exists s. auto. }
    destruct (Bd _ _ H) as (B1 & B2). cbn [snd] in B2. lia. }
  rewrite O. cbn [rbind fst snd].
  destruct (symbols_total offs (exports m f) o next) as (r & Y).
  { intros x I C. unfold exports in I. apply in_map_iff in I. destruct I as (y & <- & I). cbn [ex_section ex_relative ex_size] in *.
    destruct (wf_common f W y) as (A1 & A2 & A3). { unfold common_symbols. apply filter_In. split; [exact I |]. unfold is_common. lia. }
    assert (V : fst (setSymbolAddress m (sy_value y) (sy_type y)) = sy_value y) by (unfold setSymbolAddress; destruct m; [| destruct (Z.eqb_spec (sy_type y) STT_FUNC); [contradiction |] |]; reflexivity).
    rewrite V. auto. }
  rewrite Y. cbn [rbind]. eexists. split; reflexivity.
Qed.

Lemma import_total m labels start fs : Forall well_formed fs -> (forall f s, In f fs -> In s (ef_sections f) -> se_rels s = []) ->
  exists out size ps, relocate m labels start fs = ROk (out, size, ps, true).
Proof.
  intros W R. unfold relocate.
  assert (G : forall fs, Forall well_formed fs -> (forall f s, In f fs -> In s (ef_sections f) -> se_rels s = []) -> forall out a, exists o a' ps, relocate_files m labels out a fs = ROk (o, a', ps, true)).
  { clear. induction fs as [| f fs IH]; intros W R out a; cbn [relocate_files]; [eauto |].
    inversion W as [| ? ? W1 W2]; subst. destruct (file_total m labels out a f W1) as (p & P & Ok); [intros s; apply R; left; reflexivity |]. rewrite P. cbn [rbind].
    destruct (IH W2 (fun g s I => R g s (or_intror I)) (p_out p) (p_address p)) as (o & a' & ps & ->). cbn [rbind]. rewrite Ok. cbn [andb]. eauto. }
  destruct (G fs W R [] start) as (o & a' & ps & ->). cbn [rbind]. eauto.
Qed.
