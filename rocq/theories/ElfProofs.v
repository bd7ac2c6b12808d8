(** Proofs on the placement of imported sections and the bytes of the result. *)

Require Import ZArith Lia Bool String List.
Require Import ZifyBool.
Require Import Verif.Ints Verif.IntsLemmas Verif.Res Verif.ElfModel Verif.ElfSpec.
Import ListNotations.
Local Open Scope Z_scope.
Ltac Zify.zify_post_hook ::= Z.div_mod_to_equations.

Lemma ROk_inj {A} (a b : A) : ROk a = ROk b -> a = b.
Proof. congruence. Qed.
Lemma do_ok {A B} (x : res A) (f : A -> res B) y : (do a <- x; f a) = ROk y -> exists a, x = ROk a /\ f a = ROk y.
Proof. destruct x; cbn; try discriminate. eauto. Qed.

(** ** Bytes *)

Lemma split_length big w : length (split_word big w) = 4%nat.
Proof. destruct big; reflexivity. Qed.

Lemma nth_firstn_lt {A} (l : list A) n k d : (k < n)%nat -> nth k (firstn n l) d = nth k l d.
Proof. revert l k; induction n as [| n IH]; intros [| x l] [| k] H; cbn; try lia; auto. apply IH. lia. Qed.
Lemma nth_skipn {A} (l : list A) n k d : nth k (skipn n l) d = nth (n + k) l d.
Proof. revert l; induction n as [| n IH]; intros [| x l]; cbn; auto. destruct k; reflexivity. Qed.

(** Replacing a part of a list. *)
Lemma splice_length {A} (l m : list A) n : (n + length m <= length l)%nat ->
  length (firstn n l ++ m ++ skipn (n + length m) l) = length l.
Proof. intros. rewrite !app_length, firstn_length, skipn_length. lia. Qed.
Lemma splice_nth {A} (l m : list A) n k d : (n + length m <= length l)%nat ->
  nth k (firstn n l ++ m ++ skipn (n + length m) l) d =
  if ((n <=? k) && (k <? n + length m))%nat then nth (k - n) m d else nth k l d.
Proof.
  intros H. destruct (Nat.leb_spec n k) as [L | L]; cbn [andb].
  - rewrite app_nth2 by (rewrite firstn_length; lia). rewrite firstn_length, Nat.min_l by lia.
    destruct (Nat.ltb_spec k (n + length m)).
    + rewrite app_nth1 by lia. reflexivity.
    + rewrite app_nth2 by lia. rewrite nth_skipn. f_equal. lia.
  - rewrite app_nth1 by (rewrite firstn_length; lia). apply nth_firstn_lt. lia.
Qed.

Definition inside (data : list Z) (pos : Z) : Prop := 0 <= pos /\ pos + 4 <= Z.of_nat (length data).

Lemma get_word big data pos : inside data pos -> getDoubleWord big data pos = ROk (word_at big data pos).
Proof.
  intros [A B]. unfold getDoubleWord.
  replace ((pos <? -3) || (pos + 3 >=? Z.of_nat (length data))) with false by lia.
  replace (pos <? 0) with false by lia. f_equal.
  assert (E : firstn 4 (skipn (Z.to_nat pos) data) = [byte_at data pos; byte_at data (pos + 1); byte_at data (pos + 2); byte_at data (pos + 3)]).
  { unfold byte_at. replace (Z.to_nat (pos + 1)) with (Z.to_nat pos + 1)%nat by lia.
    replace (Z.to_nat (pos + 2)) with (Z.to_nat pos + 2)%nat by lia. replace (Z.to_nat (pos + 3)) with (Z.to_nat pos + 3)%nat by lia.
    assert (Hn : (Z.to_nat pos + 4 <= length data)%nat) by lia. revert Hn. generalize (Z.to_nat pos). clear.
    intros n. revert data. induction n as [| n IH]; intros data Hn.
    - destruct data as [| a [| b [| c [| d l]]]]; cbn in Hn; try lia. reflexivity.
    - destruct data as [| a l]; [cbn in Hn; lia |]. cbn [skipn Nat.add nth]. apply IH. cbn in Hn. lia. }
  rewrite E. unfold compose, word_at. destruct big; lia.
Qed.

Lemma put_word big data pos w : inside data pos ->
  exists data', replaceDoubleWord big data pos w = ROk data' /\ length data' = length data /\
    (forall k, 0 <= k -> byte_at data' k = if (pos <=? k) && (k <? pos + 4) then nth (Z.to_nat (k - pos)) (split_word big w) 0 else byte_at data k).
Proof.
  intros [A B]. unfold replaceDoubleWord.
  replace ((pos <? -3) || (pos + 3 >=? Z.of_nat (length data))) with false by lia.
  replace (pos <? 0) with false by lia.
  pose proof (split_length big w) as L.
  replace (Z.to_nat pos + 4)%nat with (Z.to_nat pos + length (split_word big w))%nat by lia.
  eexists. split; [reflexivity |]. split; [apply splice_length; lia |].
  intros k Hk. unfold byte_at. rewrite splice_nth by lia. rewrite L.
  replace ((Z.to_nat pos <=? Z.to_nat k) && (Z.to_nat k <? Z.to_nat pos + 4))%nat with ((pos <=? k) && (k <? pos + 4)) by lia.
  destruct (_ && _) eqn:E; [| reflexivity]. f_equal. lia.
Qed.

Lemma put_length big data pos w data' : replaceDoubleWord big data pos w = ROk data' -> length data' = length data.
Proof.
  unfold replaceDoubleWord. destruct ((pos <? -3) || (pos + 3 >=? Z.of_nat (length data))) eqn:E; [intros H; apply ROk_inj in H; congruence |].
  destruct (pos <? 0) eqn:E'; [discriminate |]. intros H. apply ROk_inj in H. subst data'.
  replace (Z.to_nat pos + 4)%nat with (Z.to_nat pos + length (split_word big w))%nat by (rewrite split_length; lia). apply splice_length. rewrite split_length. lia.
Qed.

(** The word that was written. *)
Lemma word_put big data data' pos w : 0 <= pos ->
  (forall k, 0 <= k -> byte_at data' k = if (pos <=? k) && (k <? pos + 4) then nth (Z.to_nat (k - pos)) (split_word big w) 0 else byte_at data k) ->
  word_at big data' pos = u32 w.
Proof.
  intros A H. unfold word_at.
  rewrite (H pos), (H (pos + 1)), (H (pos + 2)), (H (pos + 3)) by lia.
  replace ((pos <=? pos) && (pos <? pos + 4)) with true by lia.
  replace ((pos <=? pos + 1) && (pos + 1 <? pos + 4)) with true by lia.
  replace ((pos <=? pos + 2) && (pos + 2 <? pos + 4)) with true by lia.
  replace ((pos <=? pos + 3) && (pos + 3 <? pos + 4)) with true by lia.
  replace (pos - pos) with 0 by lia. replace (pos + 1 - pos) with 1 by lia.
  replace (pos + 2 - pos) with 2 by lia. replace (pos + 3 - pos) with 3 by lia.
  unfold split_word, u32. cbv zeta. clear.
  change (Z.to_nat 0) with 0%nat. change (Z.to_nat 1) with 1%nat. change (Z.to_nat 2) with 2%nat. change (Z.to_nat 3) with 3%nat.
  destruct big; cbn [rev app nth]; lia.
Qed.

Lemma word_same big data data' pos pos' : (forall k, 0 <= k < 4 -> byte_at data (pos + k) = byte_at data' (pos' + k)) ->
  word_at big data pos = word_at big data' pos'.
Proof.
  intros H. unfold word_at. rewrite (H 1), (H 2), (H 3) by lia.
  specialize (H 0 ltac:(lia)). rewrite !Z.add_0_r in H. rewrite H. reflexivity.
Qed.

Lemma byte_range data k : Forall is_byte data -> is_byte (byte_at data k).
Proof.
  intros F. unfold byte_at. destruct (Nat.lt_ge_cases (Z.to_nat k) (length data)) as [L | L].
  - rewrite Forall_forall in F. apply F, nth_In, L.
  - rewrite nth_overflow by assumption. unfold is_byte. lia.
Qed.
Lemma word_range big data pos : Forall is_byte data -> 0 <= word_at big data pos < 4294967296.
Proof.
  intros F. unfold word_at.
  pose proof (byte_range data pos F). pose proof (byte_range data (pos + 1) F).
  pose proof (byte_range data (pos + 2) F). pose proof (byte_range data (pos + 3) F).
  unfold is_byte in *. destruct big; lia.
Qed.

(** ** Writing the new words *)

Lemma apply_app big data base a b :
  apply_actions big data base (a ++ b) = do d <- apply_actions big data base a; apply_actions big d base b.
Proof.
  revert data; induction a as [| [o w] a IH]; intros data; cbn [app apply_actions]; [reflexivity |].
  destruct (replaceDoubleWord big data (o - base) w); cbn; auto.
Qed.
Lemma apply_length big data base acts data' : apply_actions big data base acts = ROk data' -> length data' = length data.
Proof.
  revert data; induction acts as [| [o w] acts IH]; intros data; cbn [apply_actions]; [intros H; apply ROk_inj in H; congruence |].
  intros H. apply do_ok in H. destruct H as (d & A & B). apply IH in B. apply put_length in A. congruence.
Qed.

Definition in_range (data : list Z) (base : Z) (a : action) : Prop := inside data (fst a - base).
Definition off_site (base k : Z) (a : action) : Prop := k < fst a - base \/ fst a - base + 4 <= k.

Lemma in_range_length data data' base a : length data' = length data -> in_range data base a -> in_range data' base a.
Proof. unfold in_range, inside. intros ->. auto. Qed.

Lemma apply_total big base acts : forall data, Forall (in_range data base) acts ->
  exists data', apply_actions big data base acts = ROk data' /\
    (forall k, 0 <= k -> Forall (off_site base k) acts -> byte_at data' k = byte_at data k).
Proof.
  induction acts as [| [o w] acts IH]; intros data F; cbn [apply_actions].
  - exists data. auto.
  - inversion F as [| ? ? A B]; subst. destruct (put_word big data _ w A) as (d & E & L & Hb). cbn [fst] in E, Hb. rewrite E. cbn [rbind].
    destruct (IH d) as (d' & E' & Hb'); [eapply Forall_impl; [| exact B]; intros a; apply in_range_length, L |].
    exists d'. split; [exact E' |]. intros k Hk G. inversion G as [| ? ? G1 G2]; subst.
    rewrite Hb' by assumption. rewrite Hb by assumption. unfold off_site in G1. cbn [fst] in G1.
    replace ((o - base <=? k) && (k <? o - base + 4)) with false by lia. reflexivity.
Qed.

Lemma apply_word big base o w acts : forall data data', Forall (in_range data base) acts ->
  apply_actions big data base acts = ROk data' -> 0 <= o - base ->
  Forall (fun a : action => fst a = o -> snd a = w) acts ->
  Forall (fun a : action => fst a = o \/ fst a + 4 <= o \/ o + 4 <= fst a) acts ->
  word_at big data (o - base) = u32 w \/ Exists (fun a : action => fst a = o) acts ->
  word_at big data' (o - base) = u32 w.
Proof.
  induction acts as [| [o' w'] acts IH]; intros data data' F; cbn [apply_actions].
  - intros H. apply ROk_inj in H. subst data'. intros _ _ _ [H | H]; [exact H | inversion H].
  - inversion F as [| ? ? A B]; subst. destruct (put_word big data _ w' A) as (d & E & L & Hb). cbn [fst] in E, Hb. rewrite E. cbn [rbind].
    intros H P V S X. inversion V as [| ? ? V1 V2]; subst. inversion S as [| ? ? S1 S2]; subst. cbn [fst snd] in *.
    apply (IH d data'); try assumption.
    + eapply Forall_impl; [| exact B]. intros a. apply in_range_length, L.
    + destruct (Z.eq_dec o' o) as [-> | N].
      * left. rewrite (word_put big data d _ w'); [rewrite V1 by reflexivity; reflexivity | lia | exact Hb].
      * destruct X as [X | X].
        -- left. rewrite <- X. apply word_same. intros k Hk. rewrite Hb by lia.
           replace ((o' - base <=? o - base + k) && (o - base + k <? o' - base + 4)) with false by lia. reflexivity.
        -- right. inversion X; subst; [contradiction | assumption].
Qed.

(** ** Alignment *)

Lemma bump_spec fuel : forall a al x, bump fuel a al = ROk x ->
  Z.rem x al = 0 /\ a <= x /\ (forall y, a <= y < x -> Z.rem y al <> 0).
Proof.
  induction fuel as [| fuel IH]; intros a al x; cbn [bump]; destruct (Z.eqb_spec (Z.rem a al) 0) as [E | E]; try discriminate.
  - intros H. apply ROk_inj in H. subst. repeat split; [assumption | lia | intros; lia].
  - intros H. apply ROk_inj in H. subst. repeat split; [assumption | lia | intros; lia].
  - intros H. destruct (IH _ _ _ H) as (A & B & C). repeat split; [assumption | lia |].
    intros y Hy. destruct (Z.eq_dec y a) as [-> | N]; [assumption | apply C; lia].
Qed.
Lemma bump_total fuel : forall a al y, a <= y <= a + Z.of_nat fuel -> Z.rem y al = 0 -> exists x, bump fuel a al = ROk x.
Proof.
  induction fuel as [| fuel IH]; intros a al y H R; cbn [bump]; destruct (Z.eqb_spec (Z.rem a al) 0) as [E | E]; eauto.
  - replace y with a in R by lia. contradiction.
  - apply (IH (a + 1) al y); [| assumption]. assert (y <> a) by congruence. lia.
Qed.
Lemma rem_mod0 x al : 0 < al -> (Z.rem x al = 0 <-> x mod al = 0).
Proof.
  intros H. rewrite Z.mod_divide, <- Z.rem_divide by lia. reflexivity.
Qed.
Lemma next_aligned a al : 0 < al -> exists y, a <= y < a + al /\ y mod al = 0.
Proof.
  intros H. exists (a + (- a) mod al). pose proof (Z.mod_pos_bound (- a) al H). split; [lia |].
  rewrite Z.add_mod_idemp_r by lia. rewrite Z.add_opp_diag_r. apply Z.mod_0_l. lia.
Qed.
Lemma align_up_spec a al x : 0 < al -> align_up a al = ROk x -> x mod al = 0 /\ a <= x < a + al.
Proof.
  intros H. unfold align_up. destruct (Z.eqb_spec al 0); [discriminate |]. intros E.
  destruct (bump_spec _ _ _ _ E) as (A & B & C). split; [apply rem_mod0; assumption |].
  destruct (next_aligned a al H) as (y & Hy & Y). destruct (Z.le_gt_cases x y); [lia |].
  exfalso. apply (C y); [lia | apply rem_mod0; assumption].
Qed.
Lemma align_up_total a al : 0 < al -> exists x, align_up a al = ROk x.
Proof.
  intros H. unfold align_up. destruct (Z.eqb_spec al 0); [lia |].
  destruct (next_aligned a al H) as (y & Hy & Y). apply (bump_total _ a al y); [lia | apply rem_mod0; assumption].
Qed.

(** ** Placement *)

Lemma laid_out_app a bs xs e : laid_out a bs xs e -> forall bs' xs' e', laid_out e bs' xs' e' -> laid_out a (bs ++ bs') (xs ++ xs') e'.
Proof. induction 1; intros; cbn [app]; [assumption | constructor; auto]. Qed.
Lemma laid_out_length a bs xs e : laid_out a bs xs e -> length xs = length bs.
Proof. induction 1; cbn; congruence. Qed.

Lemma laid_out_bounds a bs xs e : Forall (fun b => 0 <= snd b) bs -> laid_out a bs xs e ->
  a <= e /\ (forall b x, In (b, x) (combine bs xs) -> a <= x /\ x + snd b <= e).
Proof.
  intros F L. induction L as [a | a al sz x bs xs e M R L IH]; [split; [lia | intros ? ? []] |].
  inversion F as [| ? ? F1 F2]; subst. cbn [snd] in F1. destruct (IH F2) as (A & B). split; [lia |].
  cbn [combine]. intros b y [E | I].
  - injection E as <- <-. cbn [snd]. lia.
  - specialize (B b y I). lia.
Qed.
Lemma laid_out_order a bs xs e : Forall (fun b => 0 <= snd b) bs -> laid_out a bs xs e ->
  ForallOrdPairs (fun b b' : (Z * Z) * Z => snd b + snd (fst b) <= snd b') (combine bs xs).
Proof.
  intros F L. induction L as [a | a al sz x bs xs e M R L IH]; [constructor |].
  inversion F as [| ? ? F1 F2]; subst. cbn [combine]. constructor; [| auto].
  apply Forall_forall. intros [b y] I. cbn [fst snd]. destruct (laid_out_bounds _ _ _ _ F2 L) as [_ B]. apply (B b y I).
Qed.

Lemma place_sections_spec ss : forall a offs next,
  (forall s, In s ss -> 0 < se_align s /\ 0 <= se_size s < 2147483648) ->
  place_sections a ss = ROk (offs, next) ->
  map fst offs = map se_index ss /\ laid_out a (map (fun s => (se_align s, se_size s)) ss) (map snd offs) next.
Proof.
  induction ss as [| s ss IH]; intros a offs next W; cbn [place_sections].
  - intros H. apply ROk_inj in H. injection H as <- <-. split; [reflexivity | constructor].
  - intros H. apply do_ok in H. destruct H as (x & X & H). apply do_ok in H. destruct H as ([offs' next'] & Y & H).
    apply ROk_inj in H. cbn [fst snd] in H. injection H as <- <-. destruct (W s (or_introl eq_refl)) as (A & B).
    rewrite s32_small in Y by lia.
    destruct (IH _ _ _ (fun s' I => W s' (or_intror I)) Y) as (P & Q). cbn [map fst snd]. split; [congruence |].
    destruct (align_up_spec _ _ _ A X). constructor; assumption.
Qed.

Lemma place_sections_total ss : forall a, (forall s, In s ss -> 0 < se_align s) -> exists r, place_sections a ss = ROk r.
Proof.
  induction ss as [| s ss IH]; intros a W; cbn [place_sections]; [eauto |].
  destruct (align_up_total a (se_align s)) as (x & X); [apply W; left; reflexivity |]. rewrite X. cbn [rbind].
  destruct (IH (x + s32 (se_size s)) (fun s' I => W s' (or_intror I))) as (r & R). rewrite R. cbn [rbind]. eauto.
Qed.

(** ** Copying the sections *)

Lemma copy_spec out pos data out' : copy_to out pos data = ROk out' ->
  length out' = length out /\ 0 <= pos /\ pos + Z.of_nat (length data) <= Z.of_nat (length out) /\
  (forall k, 0 <= k -> byte_at out' k = if (pos <=? k) && (k <? pos + Z.of_nat (length data)) then byte_at data (k - pos) else byte_at out k).
Proof.
  unfold copy_to. destruct ((pos <? 0) || (Z.of_nat (length out) <? pos + Z.of_nat (length data))) eqn:E; [discriminate |].
  intros H. apply ROk_inj in H. subst out'. split; [apply splice_length; lia |]. split; [lia |]. split; [lia |].
  intros k Hk. unfold byte_at. rewrite splice_nth by lia.
  replace ((Z.to_nat pos <=? Z.to_nat k) && (Z.to_nat k <? Z.to_nat pos + length data))%nat with ((pos <=? k) && (k <? pos + Z.of_nat (length data))) by lia.
  destruct ((pos <=? k) && (k <? pos + Z.of_nat (length data))) eqn:E'; [| reflexivity]. f_equal. lia.
Qed.

Lemma section_length m labels big symtab offsets s base data ok :
  relocate_section m labels big symtab offsets s base = ROk (data, ok) -> length data = length (se_data s).
Proof.
  unfold relocate_section. intros H. apply do_ok in H. destruct H as ([[acts hs] ok1] & _ & H).
  apply do_ok in H. destruct H as (y & _ & H). apply do_ok in H. destruct H as (d & D & H).
  apply ROk_inj in H. injection H as -> _. apply (apply_length _ _ _ _ _ D).
Qed.

Section Load.
Variables (m : machine) (labels : string -> option elabel) (big : bool) (symtab : list esym) (offsets : list (Z * Z)).
Variables (ds start : Z).
Hypothesis Hds : 0 <= ds.

(** Where the bytes of a section begin and end in the output. *)
Let from (s : esec) : Z := ds + offset_of offsets (se_index s) - start.
Let till (s : esec) : Z := from s + Z.of_nat (length (se_data s)).
Let bits_of (ss : list esec) : list esec := filter (fun s => negb (se_nobits s)) ss.

Lemma load_spec ss : forall out out' ok,
  ForallOrdPairs (fun s s' => till s <= from s' \/ till s' <= from s) (bits_of ss) ->
  load_sections m labels big symtab offsets out ds start ss = ROk (out', ok) ->
  length out' = length out /\
  (forall k, 0 <= k -> Forall (fun s => k < from s \/ till s <= k) (bits_of ss) -> byte_at out' k = byte_at out k) /\
  (forall s, In s ss -> se_nobits s = false ->
     exists data oks, relocate_section m labels big symtab offsets s (offset_of offsets (se_index s)) = ROk (data, oks) /\
       (ok = true -> oks = true) /\ length data = length (se_data s) /\ 0 <= from s /\ till s <= Z.of_nat (length out) /\
       (forall k, 0 <= k < Z.of_nat (length data) -> byte_at out' (from s + k) = byte_at data k)).
Proof.
  induction ss as [| s ss IH]; intros out out' ok; unfold bits_of; cbn [filter load_sections].
  - intros _ H. apply ROk_inj in H. injection H as <- <-. split; [reflexivity |]. split; [auto |]. intros s [].
  - destruct (se_nobits s) eqn:N; cbn [negb]; fold (bits_of ss).
    + intros D H. destruct (IH _ _ _ D H) as (A & B & C). split; [exact A |]. split; [exact B |].
      intros s' [<- | I] N'; [congruence | auto].
    + intros D H. inversion D as [| ? ? D1 D2]; subst.
      apply do_ok in H. destruct H as ([data oks] & R & H). apply do_ok in H. destruct H as (o1 & P & H).
      apply do_ok in H. destruct H as ([o2 ok2] & L & H). apply ROk_inj in H. cbn [fst snd] in *. injection H as <- <-.
      destruct (IH _ _ _ D2 L) as (A & B & C). destruct (copy_spec _ _ _ _ P) as (A1 & A2 & A3 & A4).
      fold (from s) in A2, A3, A4.
      pose proof (section_length _ _ _ _ _ _ _ _ _ R) as Ln. rewrite Ln in A3, A4. fold (till s) in A3, A4.
      split; [congruence |]. split.
      * intros k Hk F. inversion F as [| ? ? F1 F2]; subst. rewrite B by assumption. rewrite A4 by assumption.
        replace ((from s <=? k) && (k <? till s)) with false by lia. reflexivity.
      * intros s' [<- | I] N'.
        -- exists data, oks. split; [exact R |]. split; [intros E; apply andb_prop in E; apply E |].
           split; [exact Ln |]. split; [exact A2 |]. split; [exact A3 |]. intros k Hk.
           rewrite B; [| lia |].
           ++ rewrite A4 by lia. unfold till. replace ((from s <=? from s + k) && (from s + k <? from s + Z.of_nat (length (se_data s)))) with true by lia.
              f_equal. lia.
           ++ apply Forall_forall. intros s' I'. rewrite Forall_forall in D1. specialize (D1 s' I').
              unfold till in D1 |- *. lia.
        -- destruct (C s' I N') as (d' & ok' & C1 & C2 & C3 & C4 & C5 & C6). exists d', ok'.
           split; [exact C1 |]. split; [intros E; apply andb_prop in E; apply C2, E |].
           split; [exact C3 |]. split; [exact C4 |]. split; [rewrite <- A1; exact C5 | exact C6].
Qed.
End Load.

(** ** Symbols *)

Lemma reserve_spec out n out' : reserve out n = ROk out' -> 0 <= n /\ out' = out ++ repeat 0 (Z.to_nat n).
Proof. unfold reserve. destruct (n <? 0) eqn:E; [discriminate |]. intros H. apply ROk_inj in H. split; [lia | congruence]. Qed.

Definition common_exports (xs : list eexp) (vs : list Z) : list ((Z * Z) * Z) :=
  map (fun c => ((ex_relative (fst c), ex_size (fst c)), snd c)) (filter (fun c : eexp * Z => ex_section (fst c) =? SHN_COMMON) (combine xs vs)).

Lemma place_symbols_spec offs xs : forall out a out' a' vs,
  (forall x, In x xs -> ex_section x = SHN_COMMON -> 0 < ex_relative x /\ 0 <= ex_size x) ->
  place_symbols offs out a xs = ROk (out', a', vs) ->
  length vs = length xs /\ a <= a' /\ out' = out ++ repeat 0 (Z.to_nat (a' - a)) /\
  laid_out a (map fst (common_exports xs vs)) (map snd (common_exports xs vs)) a' /\
  (forall x v, In (x, v) (combine xs vs) -> ex_section x <> SHN_COMMON ->
     v = if ex_section x =? SHN_ABS then ex_relative x else ex_relative x + offset_of offs (ex_section x)).
Proof.
  induction xs as [| x xs IH]; intros out a out' a' vs W; cbn [place_symbols].
  - intros H. apply ROk_inj in H. injection H as <- <- <-. split; [reflexivity |]. split; [lia |]. rewrite Z.sub_diag. split; [symmetry; apply app_nil_r |].
    split; [constructor | intros ? ? []].
  - pose proof (fun x' I => W x' (or_intror I)) as W'. destruct (Z.eqb_spec (ex_section x) SHN_ABS) as [E | E].
    + intros H. apply do_ok in H. destruct H as ([[o b] us] & R & H). apply ROk_inj in H. cbn [fst snd] in H. injection H as -> -> <-.
      destruct (IH _ _ _ _ _ W' R) as (A & B & C & D & F). split; [cbn; congruence |]. split; [exact B |]. split; [exact C |].
      unfold common_exports in *. cbn [combine filter fst]. replace (ex_section x =? SHN_COMMON) with false by (rewrite E; reflexivity).
      split; [exact D |]. intros y v [Q | I] N; [injection Q as <- <-; rewrite E; reflexivity | auto].
    + destruct (Z.eqb_spec (ex_section x) SHN_COMMON) as [E' | E'].
      * intros H. apply do_ok in H. destruct H as (y & Y & H). apply do_ok in H. destruct H as (o1 & O & H).
        apply do_ok in H. destruct H as ([[o b] us] & R & H). apply ROk_inj in H. cbn [fst snd] in H. injection H as -> -> <-.
        destruct (IH _ _ _ _ _ W' R) as (A & B & C & D & F). destruct (W x (or_introl eq_refl) E') as (W1 & W2).
        destruct (align_up_spec _ _ _ W1 Y) as (P1 & P2). destruct (reserve_spec _ _ _ O) as (Q1 & ->).
        split; [cbn; congruence |]. split; [lia |]. split.
        { rewrite C, <- app_assoc, <- repeat_app. do 2 f_equal. lia. }
        unfold common_exports in *. cbn [combine filter fst]. replace (ex_section x =? SHN_COMMON) with true by (rewrite E'; reflexivity).
        cbn [map fst snd]. split; [constructor; assumption |].
        intros z v [Q | I] N; [injection Q as <- <-; contradiction | auto].
      * intros H. apply do_ok in H. destruct H as ([[o b] us] & R & H). apply ROk_inj in H. cbn [fst snd] in H. injection H as -> -> <-.
        destruct (IH _ _ _ _ _ W' R) as (A & B & C & D & F). split; [cbn; congruence |]. split; [exact B |]. split; [exact C |].
        unfold common_exports in *. cbn [combine filter fst]. replace (ex_section x =? SHN_COMMON) with false by lia.
        split; [exact D |]. intros y v [Q | I] N; [injection Q as <- <- | auto].
        replace (ex_section x =? SHN_ABS) with false by lia. reflexivity.
Qed.

(** ** Files *)

Lemma combine_map {A B C} (f : A -> B) (g : A -> C) l : combine (map f l) (map g l) = map (fun a => (f a, g a)) l.
Proof. induction l; cbn; congruence. Qed.
Lemma pairs_map {A B} (f : A -> B) (R : B -> B -> Prop) l : ForallOrdPairs R (map f l) -> ForallOrdPairs (fun a b => R (f a) (f b)) l.
Proof.
  induction l as [| a l IH]; cbn [map]; [constructor |]. inversion 1 as [| ? ? H1 H2]; subst. constructor; [| auto].
  apply Forall_forall. intros b I. rewrite Forall_forall in H1. apply H1, in_map, I.
Qed.
Lemma pairs_filter {A} (R : A -> A -> Prop) p l : ForallOrdPairs R l -> ForallOrdPairs R (filter p l).
Proof.
  induction 1 as [| a l H1 H2 IH]; cbn [filter]; [constructor |]. destruct (p a); [| assumption].
  constructor; [| assumption]. apply Forall_forall. intros b I. apply filter_In in I. rewrite Forall_forall in H1. apply H1, I.
Qed.
Lemma pairs_impl {A} (R Q : A -> A -> Prop) l : (forall a b, In a l -> In b l -> R a b -> Q a b) -> ForallOrdPairs R l -> ForallOrdPairs Q l.
Proof.
  intros I H. induction H as [| a l H1 H2 IH]; [constructor |]. constructor.
  - apply Forall_forall. intros b Hb. apply I; [left; reflexivity | right; assumption |]. rewrite Forall_forall in H1. auto.
  - apply IH. intros b c Hb Hc. apply I; right; assumption.
Qed.

Lemma offsets_map ss : forall offs, map fst offs = map se_index ss -> NoDup (map se_index ss) ->
  map snd offs = map (fun s => offset_of offs (se_index s)) ss.
Proof.
  induction ss as [| s ss IH]; intros [| [i a] offs]; cbn [map fst snd]; try discriminate; [reflexivity |].
  intros H N. injection H as -> H. inversion N as [| ? ? N1 N2]; subst. cbn [offset_of]. rewrite Z.eqb_refl. f_equal.
  rewrite (IH offs H N2). apply map_ext_in. intros s' I.
  destruct (Z.eqb_spec (se_index s') (se_index s)) as [E | E]; [| reflexivity].
  exfalso. apply N1. rewrite <- E. apply in_map, I.
Qed.
Lemma offset_missing offs i : ~ In i (map fst offs) -> offset_of offs i = 0.
Proof.
  induction offs as [| [j a] offs IH]; cbn [map fst offset_of]; [reflexivity |]. intros N.
  destruct (Z.eqb_spec i j) as [-> | E]; [exfalso; apply N; left; reflexivity |]. apply IH. intros I. apply N. right. exact I.
Qed.

Lemma commons_eq m ys : forall vs, (forall y, In y (filter is_common ys) -> 0 < sy_value y /\ 0 <= sy_size y /\ sy_type y <> STT_FUNC) ->
  length vs = length ys ->
  let xs := map (fun s => mkExp (sy_shndx s) (fst (setSymbolAddress m (sy_value s) (sy_type s))) (sy_size s)) ys in
  map fst (common_exports xs vs) = map (fun y => (sy_value y, sy_size y)) (filter is_common ys) /\
  map snd (common_exports xs vs) = map snd (filter (fun c => is_common (fst c)) (combine ys vs)).
Proof.
  induction ys as [| y ys IH]; intros [| v vs] W L; cbn in L; try discriminate; [split; reflexivity |].
  assert (W' : forall y, In y (filter is_common ys) -> 0 < sy_value y /\ 0 <= sy_size y /\ sy_type y <> STT_FUNC).
  { intros y' I. apply W. cbn [filter]. destruct (is_common y); [right |]; exact I. }
  destruct (IH vs W' ltac:(lia)) as (A & B). unfold common_exports in *. cbn [map combine filter fst ex_section].
  fold (is_common y). destruct (is_common y) eqn:E; cbn [map fst snd ex_relative ex_size].
  - split; [| f_equal; exact B]. f_equal; [| exact A]. f_equal.
    destruct (W y) as (_ & _ & T); [cbn [filter]; rewrite E; left; reflexivity |].
    destruct m; cbn [setSymbolAddress fst]; try reflexivity.
    replace (sy_type y =? STT_FUNC) with false by lia. reflexivity.
  - split; assumption.
Qed.

Lemma in_common_export m f x : well_formed f -> In x (exports m f) -> ex_section x = SHN_COMMON -> 0 < ex_relative x /\ 0 <= ex_size x.
Proof.
  intros W I E. apply in_map_iff in I. destruct I as (y & <- & I). cbn [ex_section ex_relative ex_size] in *.
  destruct (wf_common f W y) as (A & B & C).
  { unfold common_symbols. apply filter_In. split; [exact I |]. unfold is_common. lia. }
  split; [| exact B]. destruct m; cbn [setSymbolAddress fst]; try assumption.
  replace (sy_type y =? STT_FUNC) with false by lia. exact A.
Qed.

Lemma byte_app_l a b k : 0 <= k < Z.of_nat (length a) -> byte_at (a ++ b) k = byte_at a k.
Proof. intros H. unfold byte_at. apply app_nth1. lia. Qed.
Lemma byte_app_r a b k : 0 <= k -> byte_at (a ++ b) (Z.of_nat (length a) + k) = byte_at b k.
Proof. intros H. unfold byte_at. rewrite app_nth2 by lia. f_equal. lia. Qed.
Lemma byte_zero n k : byte_at (repeat 0 n) k = 0.
Proof. unfold byte_at. apply nth_repeat. Qed.
Lemma prefix_split (a c : list Z) : (length a <= length c)%nat -> (forall k, 0 <= k < Z.of_nat (length a) -> byte_at c k = byte_at a k) ->
  c = a ++ skipn (length a) c.
Proof.
  intros L H. rewrite <- (firstn_skipn (length a) c) at 1. f_equal.
  apply (nth_ext _ _ 0 0); [rewrite firstn_length; lia |].
  intros n Hn. rewrite firstn_length in Hn. rewrite nth_firstn_lt by lia.
  specialize (H (Z.of_nat n) ltac:(lia)). unfold byte_at in H. rewrite Nat2Z.id in H. exact H.
Qed.

Record file_facts (m : machine) (labels : string -> option elabel) (a : Z) (f : efile) (p : placed) (tail : list Z) : Prop := mkFF {
  ff_length : Z.of_nat (length tail) = p_address p - a;
  ff_index : map fst (p_offsets p) = map se_index (ef_sections f);
  ff_laid : laid_out a (blocks f) (section_addresses p ++ common_addresses f p) (p_address p);
  ff_symbols : length (p_symbols p) = length (filter is_exported (ef_symtab f));
  ff_values : forall y v, In (y, v) (combine (filter is_exported (ef_symtab f)) (p_symbols p)) -> sy_shndx y <> SHN_COMMON ->
    v = fst (setSymbolAddress m (sy_value y) (sy_type y)) + (if sy_shndx y =? SHN_ABS then 0 else offset_of (p_offsets p) (sy_shndx y));
  ff_content : forall s x, placed_at f p s x -> se_nobits s = false ->
    exists data oks, relocate_section m labels (ef_big f) (ef_symtab f) (p_offsets p) s x = ROk (data, oks) /\
      (p_ok p = true -> oks = true) /\ length data = length (se_data s) /\
      (forall k, 0 <= k < Z.of_nat (length data) -> byte_at tail (x - a + k) = byte_at data k);
  ff_rest : forall k, 0 <= k -> (forall s x, placed_at f p s x -> se_nobits s = false -> k < x - a \/ x - a + se_size s <= k) ->
    byte_at tail k = 0
}.

Lemma placed_eq f p s x : map fst (p_offsets p) = map se_index (ef_sections f) -> NoDup (map se_index (ef_sections f)) ->
  placed_at f p s x <-> In s (ef_sections f) /\ x = offset_of (p_offsets p) (se_index s).
Proof.
  intros A B. unfold placed_at, section_addresses. rewrite (offsets_map _ _ A B).
  rewrite <- (map_id (ef_sections f)) at 1. rewrite combine_map, in_map_iff. split.
  - intros (s' & E & I). injection E as -> <-. auto.
  - intros (I & ->). eauto.
Qed.

Lemma file_spec m labels out a f p : well_formed f -> relocateFile m labels out a f = ROk p ->
  exists tail, p_out p = out ++ tail /\ file_facts m labels a f p tail.
Proof.
  intros W. unfold relocateFile. intros H. apply do_ok in H. destruct H as ([offs next] & P & H).
  apply do_ok in H. destruct H as (res & R & H). apply do_ok in H. destruct H as ([out1 ok] & L & H).
  apply do_ok in H. destruct H as ([[out2 next'] vs] & S & H). apply ROk_inj in H. cbn [fst snd] in *.
  destruct (place_sections_spec _ _ _ _ (fun s I => conj (wf_align f W s I) (wf_size f W s I)) P) as (P1 & P2).
  destruct (reserve_spec _ _ _ R) as (R1 & ->).
  destruct (place_symbols_spec _ _ _ _ _ _ _ (fun x => in_common_export m f x W) S) as (S1 & S2 & S3 & S4 & S5).
  unfold exports in S1. rewrite map_length in S1.
  destruct (commons_eq m (filter is_exported (ef_symtab f)) vs (wf_common f W) S1) as (C1 & C2). fold (exports m f) in C1, C2.
  rewrite C1, C2 in S4.
  pose proof (offsets_map _ _ P1 (wf_index f W)) as OM.
  assert (Nn : Forall (fun b : Z * Z => 0 <= snd b) (map (fun s => (se_align s, se_size s)) (ef_sections f))).
  { apply Forall_forall. intros b I. apply in_map_iff in I. destruct I as (s & <- & I). cbn [snd]. apply (wf_size f W s I). }
  pose proof (laid_out_bounds _ _ _ _ Nn P2) as (_ & Bd). pose proof (laid_out_order _ _ _ _ Nn P2) as Od.
  rewrite OM, combine_map in Bd, Od. apply pairs_map in Od. cbn [fst snd] in Od.
  assert (Bd' : forall s, In s (ef_sections f) -> a <= offset_of offs (se_index s) /\ offset_of offs (se_index s) + se_size s <= next).
  { intros s I. apply (Bd (se_align s, se_size s)). apply in_map_iff. exists s. auto. }
  assert (D : ForallOrdPairs (fun s s' => Z.of_nat (length out) + offset_of offs (se_index s) - a + Z.of_nat (length (se_data s)) <= Z.of_nat (length out) + offset_of offs (se_index s') - a \/
                 Z.of_nat (length out) + offset_of offs (se_index s') - a + Z.of_nat (length (se_data s')) <= Z.of_nat (length out) + offset_of offs (se_index s) - a)
                (filter (fun s => negb (se_nobits s)) (ef_sections f))).
  { eapply pairs_impl; [| apply pairs_filter, Od]. cbn beta. intros s s' I I' Q. apply filter_In in I. apply filter_In in I'.
    rewrite (wf_data f W s), (wf_data f W s') by (try apply I; try apply I'; destruct (se_nobits s), (se_nobits s'); cbn in *; intuition congruence). lia. }
  destruct (load_spec m labels (ef_big f) (ef_symtab f) offs _ a _ _ _ _ D L) as (L1 & L2 & L3).
  set (n := Z.to_nat (next - a)) in *.
  assert (Lr : length (out ++ repeat 0 n) = (length out + n)%nat) by (rewrite app_length, repeat_length; reflexivity).
  assert (Pre : out1 = out ++ skipn (length out) out1).
  { apply prefix_split; [lia |]. intros k Hk. rewrite L2; [apply byte_app_l; lia | lia |].
    apply Forall_forall. intros s I. apply filter_In in I. destruct (Bd' s (proj1 I)). lia. }
  set (tail1 := skipn (length out) out1) in *.
  assert (Lt : length tail1 = n) by (unfold tail1; rewrite skipn_length; lia).
  exists (tail1 ++ repeat 0 (Z.to_nat (next' - next))). subst p. cbn [p_out p_address p_offsets p_symbols p_ok].
  split; [rewrite S3, Pre at 1; rewrite app_assoc; reflexivity |].
  constructor; unfold section_addresses, common_addresses; cbn [p_out p_address p_offsets p_symbols p_ok].
  - rewrite app_length, repeat_length, Lt. unfold n. lia.
  - exact P1.
  - unfold blocks. eapply laid_out_app; [exact P2 | exact S4].
  - exact S1.
  - intros y v I N.
    pose (x := mkExp (sy_shndx y) (fst (setSymbolAddress m (sy_value y) (sy_type y))) (sy_size y)).
    assert (I' : In (x, v) (combine (exports m f) vs)).
    { unfold exports. rewrite <- (map_id vs). revert I. generalize (filter is_exported (ef_symtab f)) as l. generalize vs as us.
      unfold x. clear. intros us l; revert us; induction l as [| z l IH]; intros [| u us]; cbn [map combine]; try (intros []).
      - injection H as -> ->. left. reflexivity.
      - right. auto. }
    rewrite (S5 x v I' N). unfold x. cbn [ex_section ex_relative]. destruct (sy_shndx y =? SHN_ABS); lia.
  - intros s x I N. apply placed_eq in I; [| exact P1 | exact (wf_index f W)]. cbn [p_offsets] in I. destruct I as (I & ->).
    destruct (L3 s I N) as (data & oks & A1 & A2 & A3 & A4 & A5 & A6). exists data, oks.
    split; [exact A1 |]. split; [exact A2 |]. split; [exact A3 |]. intros k Hk.
    destruct (Bd' s I) as (B1 & B2). pose proof (wf_data f W s I N) as Wd.
    rewrite byte_app_l by (unfold n in Lt; lia).
    rewrite <- (A6 k Hk). rewrite Pre. rewrite <- (byte_app_r out tail1) by lia. f_equal. lia.
  - intros k Hk Q. destruct (Z.lt_ge_cases k (Z.of_nat n)) as [Lk | Lk].
    + rewrite byte_app_l by lia. rewrite <- (byte_app_r out tail1) by lia. rewrite <- Pre. rewrite L2; [| lia |].
      * rewrite byte_app_r by lia. apply byte_zero.
      * apply Forall_forall. intros s I. apply filter_In in I. destruct I as (I & N). apply negb_true_iff in N.
        destruct (Q s (offset_of offs (se_index s))) as [C | C]; [| exact N | lia |].
        -- apply placed_eq; [exact P1 | exact (wf_index f W) |]. auto.
        -- rewrite (wf_data f W s I N). lia.
    + replace k with (Z.of_nat (length tail1) + (k - Z.of_nat n)) by lia. rewrite byte_app_r by lia. apply byte_zero.
Qed.

(** ** All files *)

Lemma blocks_sizes f : well_formed f -> Forall (fun b : Z * Z => 0 <= snd b) (blocks f).
Proof.
  intros W. apply Forall_app. split; apply Forall_forall; intros b I; apply in_map_iff in I; destruct I as (s & <- & I); cbn [snd].
  - apply (wf_size f W s I).
  - apply (wf_common f W s I).
Qed.

Lemma files_spec m labels fs : forall out a out' a' ps ok, Forall well_formed fs ->
  relocate_files m labels out a fs = ROk (out', a', ps, ok) ->
  length ps = length fs /\
  exists tail, out' = out ++ tail /\ Z.of_nat (length tail) = a' - a /\
    laid_out a (flat_map blocks fs) (all_addresses fs ps) a' /\
    (forall f p, In (f, p) (combine fs ps) -> well_formed f /\ (ok = true -> p_ok p = true) /\
       exists b ft, a <= b /\ p_address p <= a' /\ file_facts m labels b f p ft /\
         (forall k, 0 <= k < Z.of_nat (length ft) -> byte_at tail (b - a + k) = byte_at ft k)) /\
    (forall k, 0 <= k -> (forall f p s x, In (f, p) (combine fs ps) -> placed_at f p s x -> se_nobits s = false ->
       k < x - a \/ x - a + se_size s <= k) -> byte_at tail k = 0).
Proof.
  induction fs as [| f fs IH]; intros out a out' a' ps ok W; cbn [relocate_files].
  - intros H. apply ROk_inj in H. injection H as <- <- <- <-. split; [reflexivity |]. exists []. rewrite app_nil_r.
    split; [reflexivity |]. split; [cbn; lia |]. split; [constructor |]. split; [intros f p [] |]. intros k Hk _. unfold byte_at. destruct (Z.to_nat k); reflexivity.
  - intros H. inversion W as [| ? ? W1 W2]; subst. apply do_ok in H. destruct H as (p & P & H). apply do_ok in H. destruct H as ([[[o2 a2] ps2] ok2] & R & H).
    apply ROk_inj in H. injection H as <- <- <- <-.
    destruct (file_spec _ _ _ _ _ _ W1 P) as (ft & F1 & F2).
    destruct (IH _ _ _ _ _ _ W2 R) as (L & tail & T1 & T2 & T3 & T4 & T5).
    split; [cbn; congruence |]. exists (ft ++ tail). split; [rewrite T1, F1, app_assoc; reflexivity |].
    pose proof (ff_length _ _ _ _ _ _ F2) as FL.
    split; [rewrite app_length; lia |].
    assert (Bs : p_address p <= a2).
    { apply (laid_out_bounds (p_address p) (flat_map blocks fs) (all_addresses fs ps2) a2); [| exact T3]. apply Forall_forall. intros c Ic.
      apply in_flat_map in Ic. destruct Ic as (g & Ig & Ic). rewrite Forall_forall in W2. pose proof (blocks_sizes g (W2 g Ig)) as Bs.
      rewrite Forall_forall in Bs. apply Bs, Ic. }
    split.
    { cbn [flat_map]. unfold all_addresses. cbn [combine flat_map fst snd]. eapply laid_out_app; [apply (ff_laid _ _ _ _ _ _ F2) | exact T3]. }
    split.
    + cbn [combine]. intros g q [E | I].
      * injection E as <- <-. split; [exact W1 |]. split; [intros E; apply andb_prop in E; apply E |].
        exists a, ft. split; [lia |]. split; [exact Bs |]. split; [exact F2 |]. intros k Hk. rewrite byte_app_l by lia. f_equal. lia.
      * destruct (T4 g q I) as (G1 & G2 & b & gt & G3 & G6 & G4 & G5). split; [exact G1 |].
        split; [intros E; apply andb_prop in E; apply G2, E |].
        exists b, gt. split; [lia |]. split; [exact G6 |]. split; [exact G4 |]. intros k Hk.
        rewrite <- (G5 k Hk). rewrite <- (byte_app_r ft tail) by lia. f_equal. lia.
    + intros k Hk Q. destruct (Z.lt_ge_cases k (Z.of_nat (length ft))) as [Lk | Lk].
      * rewrite byte_app_l by lia. apply (ff_rest _ _ _ _ _ _ F2); [exact Hk |]. intros s x I N. apply (Q f p s x); auto. left. reflexivity.
      * replace k with (Z.of_nat (length ft) + (k - Z.of_nat (length ft))) by lia. rewrite byte_app_r by lia. apply T5; [lia |].
        intros g q s x I I' N. specialize (Q g q s x (or_intror I) I' N). lia.
Qed.

Lemma relocate_spec m labels start fs out size ps ok : Forall well_formed fs ->
  relocate m labels start fs = ROk (out, size, ps, ok) ->
  length ps = length fs /\ Z.of_nat (length out) = size /\
  laid_out start (flat_map blocks fs) (all_addresses fs ps) (start + size) /\
  (forall f p, In (f, p) (combine fs ps) -> well_formed f /\ (ok = true -> p_ok p = true) /\
     exists b ft, start <= b /\ p_address p <= start + size /\ file_facts m labels b f p ft /\
       (forall k, 0 <= k < Z.of_nat (length ft) -> byte_at out (b - start + k) = byte_at ft k)) /\
  (forall k, 0 <= k -> (forall f p s x, In (f, p) (combine fs ps) -> placed_at f p s x -> se_nobits s = false ->
     k < x - start \/ x - start + se_size s <= k) -> byte_at out k = 0).
Proof.
  intros W. unfold relocate. intros H. apply do_ok in H. destruct H as ([[[o a'] qs] ok'] & R & H).
  apply ROk_inj in H. injection H as <- <- <- <-.
  destruct (files_spec _ _ _ _ _ _ _ _ _ W R) as (L & tail & T1 & T2 & T3 & T4 & T5). cbn [app] in T1. subst o.
  split; [exact L |]. split; [exact T2 |]. replace (start + (a' - start)) with a' by lia. auto.
Qed.

(** Content of one section in the result. *)
Lemma section_content m labels start fs out size ps ok f p s x : Forall well_formed fs ->
  relocate m labels start fs = ROk (out, size, ps, ok) -> In (f, p) (combine fs ps) -> placed_at f p s x -> se_nobits s = false ->
  well_formed f /\ map fst (p_offsets p) = map se_index (ef_sections f) /\ start <= x /\ x - start + se_size s <= Z.of_nat (length out) /\
  exists data oks, relocate_section m labels (ef_big f) (ef_symtab f) (p_offsets p) s x = ROk (data, oks) /\
    (ok = true -> oks = true) /\ Z.of_nat (length data) = se_size s /\
    (forall k, 0 <= k < se_size s -> byte_at out (x - start + k) = byte_at data k).
Proof.
  intros W R I P N. destruct (relocate_spec _ _ _ _ _ _ _ _ W R) as (L1 & L2 & L3 & L4 & L5).
  destruct (L4 f p I) as (Wf & O & b & ft & B & Be & F & C). split; [exact Wf |]. split; [apply (ff_index _ _ _ _ _ _ F) |].
  destruct (ff_content _ _ _ _ _ _ F s x P N) as (data & oks & D1 & D2 & D3 & D4).
  pose proof (proj1 (placed_eq f p s x (ff_index _ _ _ _ _ _ F) (wf_index f Wf)) P) as (Is & _).
  pose proof (wf_data f Wf s Is N) as Wd.
  assert (Bf : b <= x /\ x + se_size s <= p_address p).
  { pose proof (laid_out_bounds _ _ _ _ (blocks_sizes f Wf) (ff_laid _ _ _ _ _ _ F)) as (_ & Bb).
    apply (Bb (se_align s, se_size s)). unfold blocks, section_blocks.
    assert (Lf : length (section_addresses p) = length (ef_sections f)).
    { unfold section_addresses. rewrite map_length, <- (map_length fst), (ff_index _ _ _ _ _ _ F), map_length. reflexivity. }
    unfold placed_at in P. revert P Lf. generalize (section_addresses p) as xs. generalize (ef_sections f) as ss. clear.
    induction ss as [| s' ss IH]; intros [| y xs] P Lf; cbn [combine] in P; try (destruct P; fail). cbn [map app combine].
    destruct P as [E | P]; [injection E as -> ->; left; reflexivity | right; apply IH; [exact P | cbn in Lf; lia]]. }
  pose proof (ff_length _ _ _ _ _ _ F) as FL.
  split; [lia |]. split; [lia |].
  exists data, oks. split; [exact D1 |]. split; [auto |]. split; [lia |]. intros k Hk.
  rewrite <- (D4 k) by lia. rewrite <- (C (x - b + k)) by lia. f_equal. lia.
Qed.

Lemma laid_out_aligned a bs xs e : laid_out a bs xs e -> forall al sz x, In ((al, sz), x) (combine bs xs) -> x mod al = 0.
Proof.
  induction 1 as [a | a al sz x bs xs e M R L IH]; [intros ? ? ? [] |]. cbn [combine]. intros al' sz' x' [E | I]; [congruence | eauto].
Qed.

Lemma combine_app {A B} (l1 l2 : list A) (k1 k2 : list B) : length l1 = length k1 -> combine (l1 ++ l2) (k1 ++ k2) = combine l1 k1 ++ combine l2 k2.
Proof. revert k1. induction l1 as [| x l1 IH]; intros [| y k1] L; try discriminate; [reflexivity |]. cbn [app combine]. rewrite IH by (cbn in L; congruence). reflexivity. Qed.

Lemma placed_block m labels fs : forall a ps e, Forall well_formed fs -> length ps = length fs ->
  (forall f p, In (f, p) (combine fs ps) -> exists b ft, file_facts m labels b f p ft) ->
  laid_out a (flat_map blocks fs) (all_addresses fs ps) e ->
  forall f p s x, In (f, p) (combine fs ps) -> placed_at f p s x ->
  In ((se_align s, se_size s), x) (combine (flat_map blocks fs) (all_addresses fs ps)).
Proof.
  induction fs as [| g fs IH]; intros a [| q ps] e W L F La f p s x I P; try discriminate; [destruct I |].
  inversion W as [| ? ? W1 W2]; subst. cbn [flat_map] in *. unfold all_addresses in *. cbn [combine flat_map fst snd] in *.
  destruct (F g q (or_introl eq_refl)) as (b & ft & Fq).
  assert (Lq : length (blocks g) = length (section_addresses q ++ common_addresses g q)) by (symmetry; apply (laid_out_length _ _ _ _ (ff_laid _ _ _ _ _ _ Fq))).
  rewrite combine_app by exact Lq. apply in_app_iff. destruct I as [E | I].
  - left. injection E as <- <-. unfold blocks.
    assert (Ls : length (section_blocks g) = length (section_addresses q)).
    { unfold section_blocks, section_addresses. rewrite !map_length. rewrite <- (map_length se_index), <- (ff_index _ _ _ _ _ _ Fq). apply map_length. }
    rewrite combine_app by exact Ls. apply in_app_iff. left. unfold placed_at in P. unfold section_blocks.
    clear - P. revert P. generalize (section_addresses q). generalize (ef_sections g). induction l as [| y l IH]; intros [| z k] P; try destruct P as [].
    + injection H as -> ->. left. reflexivity.
    + right. apply IH, H.
  - right. assert (Sp : exists m', laid_out m' (flat_map blocks fs) (flat_map (fun fp => section_addresses (snd fp) ++ common_addresses (fst fp) (snd fp)) (combine fs ps)) e).
    { revert La Lq. generalize (section_addresses q ++ common_addresses g q). generalize (blocks g). clear. intros bs. revert a. induction bs as [| b bs IH]; intros a [| y l] La Lq; try discriminate.
      - cbn [app] in La. eauto.
      - cbn [app] in La. inversion La; subst. eapply (IH _ l); [eassumption |]. cbn in Lq. congruence. }
    destruct Sp as (m' & Sp). apply (IH m' ps e W2 ltac:(cbn in L; congruence) (fun f' p' I' => F f' p' (or_intror I')) Sp f p s x I P).
Qed.

Lemma layout_disjoint m labels start fs out size ps ok : Forall well_formed fs ->
  relocate m labels start fs = ROk (out, size, ps, ok) ->
  ForallOrdPairs (fun b b' : (Z * Z) * Z => snd b + snd (fst b) <= snd b') (combine (flat_map blocks fs) (all_addresses fs ps)) /\
  (forall al sz x, In ((al, sz), x) (combine (flat_map blocks fs) (all_addresses fs ps)) ->
     x mod al = 0 /\ start <= x /\ x + sz <= start + size) /\
  (forall f p s x, In (f, p) (combine fs ps) -> placed_at f p s x ->
     In ((se_align s, se_size s), x) (combine (flat_map blocks fs) (all_addresses fs ps))).
Proof.
  intros W R. destruct (relocate_spec _ _ _ _ _ _ _ _ W R) as (L & _ & La & F & _).
  assert (Bs : Forall (fun b : Z * Z => 0 <= snd b) (flat_map blocks fs)).
  { apply Forall_forall. intros c Ic. apply in_flat_map in Ic. destruct Ic as (g & Ig & Ic). rewrite Forall_forall in W. pose proof (blocks_sizes g (W g Ig)) as Bs.
    rewrite Forall_forall in Bs. apply Bs, Ic. }
  split; [apply (laid_out_order _ _ _ _ Bs La) |]. split.
  - intros al sz x I. split; [apply (laid_out_aligned _ _ _ _ La _ _ _ I) |]. destruct (laid_out_bounds _ _ _ _ Bs La) as (_ & B). apply (B _ _ I).
  - apply (placed_block m labels fs start ps (start + size) W L); [| exact La]. intros f p I. destruct (F f p I) as (_ & _ & b & ft & _ & _ & Ff & _). eauto.
Qed.

(** ** Exported symbols *)
Lemma entry_set m y : fst (setSymbolAddress m (sy_value y) (sy_type y)) = entry m y.
Proof. unfold setSymbolAddress, entry. destruct m; [reflexivity | | reflexivity]. destruct (sy_type y =? STT_FUNC); cbn [fst]; [| reflexivity]. pose proof (Z.div_mod (sy_value y) 2). lia. Qed.

Lemma exported_address m labels start fs out size ps ok f p y v a t : Forall well_formed fs ->
  relocate m labels start fs = ROk (out, size, ps, ok) -> In (f, p) (combine fs ps) ->
  In (y, v) (combine (filter is_exported (ef_symtab f)) (p_symbols p)) -> sy_shndx y <> SHN_COMMON ->
  symbol_address m labels f p y a t -> v = a.
Proof.
  intros W R I Iy Nc Sa. destruct (relocate_spec _ _ _ _ _ _ _ _ W R) as (_ & _ & _ & F & _). destruct (F f p I) as (Wf & _ & b & ft & _ & _ & Ff & _).
  pose proof (ff_values _ _ _ _ _ _ Ff y v Iy Nc) as V. rewrite entry_set in V.
  assert (Ex : is_exported y = true) by (apply in_combine_l, filter_In in Iy; apply Iy).
  inversion Sa as [l Z0 | Ab | s x P Sx | w C]; subst.
  - unfold is_exported in Ex. rewrite Z0 in Ex. cbn in Ex. rewrite Bool.andb_false_r in Ex. discriminate.
  - rewrite Ab. change (SHN_ABS =? SHN_ABS) with true. cbv iota. lia.
  - apply (placed_eq f p s x (ff_index _ _ _ _ _ _ Ff) (wf_index f Wf)) in P. destruct P as (Is & ->). rewrite Sx.
    pose proof (wf_special f Wf s Is). destruct (Z.eqb_spec (se_index s) SHN_ABS) as [E | E]; [unfold SHN_ABS in E; lia |]. lia.
  - contradiction.
Qed.
Lemma exported_all m labels start fs out size ps ok f p : Forall well_formed fs ->
  relocate m labels start fs = ROk (out, size, ps, ok) -> In (f, p) (combine fs ps) ->
  length (p_symbols p) = length (filter is_exported (ef_symtab f)).
Proof.
  intros W R I. destruct (relocate_spec _ _ _ _ _ _ _ _ W R) as (_ & _ & _ & F & _). destruct (F f p I) as (Wf & _ & b & ft & _ & _ & Ff & _). apply (ff_symbols _ _ _ _ _ _ Ff).
Qed.
