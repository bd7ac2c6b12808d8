(** Linking PlayStation object files: placement and symbols. *)

Require Import ZArith Lia Bool String List.
Require Import ZifyBool.
Require Import Verif.Ints Verif.IntsLemmas Verif.Res Verif.ElfModel Verif.ElfSpec Verif.ElfProofs Verif.PsxModel Verif.PsxReadProofs Verif.PsxLinkSpec.
Import ListNotations.
Local Open Scope Z_scope.

(** ** Placement *)

Lemma add_int_ok a b c : add_int a b = ROk c -> c = a + b /\ is_int32 c.
Proof.
  unfold add_int. destruct (s32 (a + b) =? a + b) eqn:E; [| discriminate]. intros H. apply ROk_inj in H. subst. split; [reflexivity |].
  pose proof (s32_range (a + b)). unfold is_int32. lia.
Qed.
Lemma ceil4_spec a : ceil4 a mod 4 = 0 /\ a <= ceil4 a < a + 4.
Proof. unfold ceil4. Z.div_mod_to_equations. lia. Qed.
Lemma round_up_ok a b : round_up a = ROk b -> b = ceil4 a /\ is_int32 b.
Proof.
  unfold round_up. intros H. apply do_ok in H. destruct H as (c & A & B). apply add_int_ok in B. destruct B as (-> & B). rewrite Z.add_0_r in *.
  split; [| exact B]. apply align_up_spec in A; [| lia]. pose proof (ceil4_spec a). Z.div_mod_to_equations. lia.
Qed.

Definition sizes_of (ss : list pseg) : list Z := map (fun s => size (sg_data s)) ss.
Lemma place_segments_ok ss : forall m a m' e, Forall fine_segment ss -> place_segments m a ss = ROk (m', e) ->
  e = behind a (sizes_of ss) /\ m' = rev (combine (map sg_id ss) (stack a (sizes_of ss))) ++ m.
Proof.
  induction ss as [| s ss IH]; intros m a m' e F H; cbn [place_segments] in H.
  - apply ROk_inj in H. inversion H; subst. split; reflexivity.
  - inversion F as [| ? ? F1 F2]; subst. apply do_ok in H. destruct H as (e1 & A & H). apply do_ok in H. destruct H as (e2 & B & H).
    rewrite s32_small in A by (pose proof (fs_size _ F1); pose proof (size_nonneg (sg_data s)); lia).
    apply add_int_ok in A. destruct A as (-> & _). apply round_up_ok in B. destruct B as (-> & _). destruct (IH _ _ _ _ F2 H) as (-> & ->).
    cbn [sizes_of map stack behind combine rev]. split; [reflexivity |]. rewrite <- app_assoc. reflexivity.
Qed.
Lemma stack_length sizes : forall a, length (stack a sizes) = length sizes.
Proof. induction sizes as [| n sizes IH]; intros a; cbn [stack length]; [reflexivity |]. rewrite IH. reflexivity. Qed.
Lemma stack_app s1 s2 : forall a, stack a (s1 ++ s2) = stack a s1 ++ stack (behind a s1) s2.
Proof. induction s1 as [| n s1 IH]; intros a; cbn [app stack behind]; [reflexivity |]. rewrite IH. reflexivity. Qed.
Lemma behind_app s1 s2 : forall a, behind a (s1 ++ s2) = behind (behind a s1) s2.
Proof. induction s1 as [| n s1 IH]; intros a; cbn [app behind]; [reflexivity |]. apply IH. Qed.
Lemma behind_low sizes : forall a, Forall (fun n => 0 <= n) sizes -> a <= behind a sizes.
Proof.
  induction sizes as [| n sizes IH]; intros a F; cbn [behind]; [lia |]. inversion F; subst. specialize (IH (ceil4 (a + n)) H2). pose proof (ceil4_spec (a + n)). lia.
Qed.
Lemma stack_bounds sizes : forall a, Forall (fun n => 0 <= n) sizes -> forall n x, In (n, x) (combine sizes (stack a sizes)) -> a <= x /\ x + n <= behind a sizes.
Proof.
  induction sizes as [| m sizes IH]; intros a F n x; cbn [stack combine behind]; [intros [] |]. inversion F as [| ? ? F1 F2]; subst. pose proof (ceil4_spec (a + m)).
  intros [E | I].
  - inversion E; subst. pose proof (behind_low sizes (ceil4 (x + n)) F2). lia.
  - destruct (IH _ F2 n x I). lia.
Qed.
Lemma stack_order sizes : forall a, Forall (fun n => 0 <= n) sizes ->
  ForallOrdPairs (fun b b' : Z * Z => snd b + fst b <= snd b') (combine sizes (stack a sizes)).
Proof.
  induction sizes as [| m sizes IH]; intros a F; cbn [stack combine]; [constructor |]. inversion F as [| ? ? F1 F2]; subst. constructor; [| apply IH, F2].
  apply Forall_forall. intros [n x] I. cbn [fst snd]. destruct (stack_bounds _ _ F2 n x I). pose proof (ceil4_spec (a + m)). lia.
Qed.
Lemma stack_aligned sizes : forall a x, a mod 4 = 0 -> In x (stack a sizes) -> x mod 4 = 0.
Proof.
  induction sizes as [| m sizes IH]; intros a x A; cbn [stack]; [intros [] |]. intros [<- | I]; [exact A |]. apply (IH _ _ (proj1 (ceil4_spec (a + m))) I).
Qed.

Lemma at_key_in m k v : NoDup (map fst m) -> In (k, v) m -> at_key m k = v.
Proof.
  induction m as [| [j w] m IH]; cbn [map fst at_key]; [intros _ [] |]. intros D. inversion D as [| ? ? D1 D2]; subst. intros [E | I].
  - inversion E; subst. rewrite Z.eqb_refl. reflexivity.
  - destruct (k =? j) eqn:E; [exfalso | apply IH; assumption]. apply D1. replace j with k by lia. apply in_map_iff. exists (k, v). auto.
Qed.
Lemma map_fst_combine {A B} (l : list A) (k : list B) : length l = length k -> map fst (combine l k) = l.
Proof. revert k. induction l as [| a l IH]; intros [| b k] L; try discriminate; [reflexivity |]. cbn. rewrite IH; [reflexivity |]. cbn in L. congruence. Qed.
Lemma map_combine_l {A B C} (f : A -> C) (l : list A) : forall k : list B, combine (map f l) k = map (fun c => (f (fst c), snd c)) (combine l k).
Proof. induction l as [| a l IH]; intros [| b k]; try reflexivity. cbn. rewrite IH. reflexivity. Qed.

(** The addresses of the segments are found by their numbers. *)
Definition offsets_at (f : pfile) (a : Z) : imap := rev (combine (map sg_id (pf_segments f)) (stack a (segment_sizes f))).
Lemma offsets_found f a s x : NoDup (map sg_id (pf_segments f)) -> segment_at f a s x -> at_key (offsets_at f a) (sg_id s) = x.
Proof.
  intros D I. unfold offsets_at. apply at_key_in.
  - rewrite map_rev. apply NoDup_rev. rewrite map_fst_combine; [exact D |]. rewrite stack_length. unfold segment_sizes. rewrite !map_length. reflexivity.
  - rewrite <- in_rev. rewrite map_combine_l. apply in_map_iff. exists (s, x). split; [reflexivity | exact I].
Qed.
Lemma segment_place f a s : In s (pf_segments f) -> exists x, segment_at f a s x.
Proof.
  intros I. unfold segment_at. assert (L : length (pf_segments f) = length (stack a (segment_sizes f))) by (rewrite stack_length; unfold segment_sizes; rewrite map_length; reflexivity).
  revert L I. generalize (stack a (segment_sizes f)). generalize (pf_segments f). induction l as [| t l IH]; intros [| b k] L; try discriminate; [intros [] |].
  intros [-> | I]; [exists b; left; reflexivity |]. destruct (IH k) as (x & X); [cbn in L; congruence | exact I |]. exists x. right. exact X.
Qed.
Lemma segment_at_in f a s x : segment_at f a s x -> In s (pf_segments f).
Proof. apply in_combine_l. Qed.

(** ** Symbols *)

(** The values of the symbols that are defined, and of the numbered ones. *)
Fixpoint walk (offsets : imap) (a : Z) (ys : list psym) : list (psym * Z) :=
  match ys with
  | [] => []
  | y :: ys =>
    match ps_kind y with
    | Internal seg off | Function_ seg off | InternalID _ seg off => (y, at_key offsets seg + off) :: walk offsets a ys
    | BSS _ n => (y, a) :: walk offsets (ceil4 (a + n)) ys
    | External _ => walk offsets a ys
    end
  end.
Definition names_of (ys : list psym) : list (list Z) := map (fun y => lower (ps_name y)) (filter defines ys).

Lemma set_same labels name v : set_label labels name v (lower name) = Some v.
Proof. unfold set_label. destruct (list_eq_dec Z.eq_dec (lower name) (lower name)); congruence. Qed.
Lemma set_other labels name v n : n <> lower name -> set_label labels name v n = labels n.
Proof. intros H. unfold set_label. destruct (list_eq_dec Z.eq_dec n (lower name)); congruence. Qed.

Lemma walk_names offsets ys : forall a, map (fun c => lower (ps_name (fst c))) (walk offsets a ys) = names_of ys.
Proof.
  induction ys as [| y ys IH]; intros a; [reflexivity |]. unfold names_of, defines, is_external in *. cbn [walk filter].
  destruct (ps_kind y); cbn [negb map fst]; rewrite ?IH; reflexivity.
Qed.

Lemma place_psymbols_ok offsets ys : forall l l', place_psymbols offsets l ys = ROk l' ->
  lk_address l' = behind (lk_address l) (flat_map area_size ys) /\
  (lk_ok l' = true -> lk_ok l = true) /\
  (forall n, ~ In n (names_of ys) -> lk_labels l' n = lk_labels l n) /\
  (NoDup (names_of ys) -> forall y v, In (y, v) (walk offsets (lk_address l) ys) -> lk_labels l' (lower (ps_name y)) = Some v) /\
  (forall y v, In (y, v) (walk offsets (lk_address l) ys) -> is_int32 v \/ exists i n, ps_kind y = BSS i n).
Proof.
  induction ys as [| y ys IH]; intros l l' H; cbn [place_psymbols] in H.
  - apply ROk_inj in H. subst. cbn. refine (conj eq_refl (conj (fun x => x) (conj (fun _ _ => eq_refl) (conj _ _)))); intros; contradiction.
  - assert (Q : forall v sy e (E : is_external y = false) (Ew : walk offsets (lk_address l) (y :: ys) = (y, v) :: walk offsets e ys)
                       (Ea : behind (lk_address l) (flat_map area_size (y :: ys)) = behind e (flat_map area_size ys)) (Ev : is_int32 v \/ exists i n, ps_kind y = BSS i n),
       place_psymbols offsets (mkLinked (set_label (lk_labels l) (ps_name y) v) sy e (lk_ok l)) ys = ROk l' ->
       lk_address l' = behind (lk_address l) (flat_map area_size (y :: ys)) /\ (lk_ok l' = true -> lk_ok l = true) /\
       (forall n, ~ In n (names_of (y :: ys)) -> lk_labels l' n = lk_labels l n) /\
       (NoDup (names_of (y :: ys)) -> forall z w, In (z, w) (walk offsets (lk_address l) (y :: ys)) -> lk_labels l' (lower (ps_name z)) = Some w) /\
       (forall z w, In (z, w) (walk offsets (lk_address l) (y :: ys)) -> is_int32 w \/ exists i n, ps_kind z = BSS i n)).
    { intros v sy e E Ew Ea Ev P. destruct (IH _ _ P) as (A & B & C & D & G). cbn [lk_address lk_ok lk_labels] in *.
      assert (Nm : names_of (y :: ys) = lower (ps_name y) :: names_of ys) by (unfold names_of, defines; cbn [filter]; rewrite E; reflexivity).
      rewrite Ea, Ew, Nm. split; [exact A |]. split; [exact B |]. split; [| split].
      - intros n N. rewrite C by (intros I; apply N; right; exact I). apply set_other. intros ->. apply N. left. reflexivity.
      - intros Dn z w [I | I]; inversion Dn as [| ? ? D1 D2]; subst; [| apply D; assumption]. inversion I; subst. rewrite C by exact D1. apply set_same.
      - intros z w [I | I]; [inversion I; subst; exact Ev | apply (G z w I)]. }
    destruct (ps_kind y) eqn:K.
    + apply do_ok in H. destruct H as (v & Av & H). apply add_int_ok in Av. destruct Av as (-> & Iv).
      eapply Q; [unfold is_external; rewrite K; reflexivity | cbn [walk]; rewrite K; reflexivity | unfold area_size at 1; cbn [flat_map]; unfold area_size at 1; rewrite K; reflexivity | left; exact Iv | exact H].
    + apply do_ok in H. destruct H as (v & Av & H). apply add_int_ok in Av. destruct Av as (-> & Iv).
      eapply Q; [unfold is_external; rewrite K; reflexivity | cbn [walk]; rewrite K; reflexivity | cbn [flat_map]; unfold area_size at 1; rewrite K; reflexivity | left; exact Iv | exact H].
    + assert (Ew : walk offsets (lk_address l) (y :: ys) = walk offsets (lk_address l) ys) by (cbn [walk]; rewrite K; reflexivity).
      assert (En : names_of (y :: ys) = names_of ys) by (unfold names_of, defines, is_external; cbn [filter]; rewrite K; reflexivity).
      assert (Ea : flat_map area_size (y :: ys) = flat_map area_size ys) by (cbn [flat_map]; unfold area_size at 1; rewrite K; reflexivity).
      rewrite Ew, En, Ea. destruct (lk_labels l (lower (ps_name y))); destruct (IH _ _ H) as (A & B & C & D & G); cbn [lk_address lk_ok lk_labels] in *.
      * refine (conj A (conj B (conj C (conj D G)))).
      * refine (conj A (conj _ (conj C (conj D G)))). intros O. specialize (B O). discriminate.
    + apply do_ok in H. destruct H as (e1 & A1 & H). apply do_ok in H. destruct H as (e2 & A2 & H).
      apply add_int_ok in A1. destruct A1 as (-> & _). apply round_up_ok in A2. destruct A2 as (-> & _).
      eapply Q; [unfold is_external; rewrite K; reflexivity | cbn [walk]; rewrite K; reflexivity | cbn [flat_map]; unfold area_size at 1; rewrite K; reflexivity | right; eauto | exact H].
    + apply do_ok in H. destruct H as (v & Av & H). apply add_int_ok in Av. destruct Av as (-> & Iv).
      eapply Q; [unfold is_external; rewrite K; reflexivity | cbn [walk]; rewrite K; reflexivity | cbn [flat_map]; unfold area_size at 1; rewrite K; reflexivity | left; exact Iv | exact H].
Qed.

(** The numbered symbols, when the labels have their final values. *)
Fixpoint numbered (L : env) (offsets : imap) (a : Z) (ys : list psym) : imap :=
  match ys with
  | [] => []
  | y :: ys =>
    match ps_kind y with
    | Internal _ _ | Function_ _ _ => numbered L offsets a ys
    | InternalID id seg off => (id, at_key offsets seg + off) :: numbered L offsets a ys
    | BSS id n => (id, a) :: numbered L offsets (ceil4 (a + n)) ys
    | External id => (id, match L (lower (ps_name y)) with Some v => s32 v | None => 0 end) :: numbered L offsets a ys
    end
  end.
Lemma numbered_keys L offsets ys : forall a, map fst (numbered L offsets a ys) = flat_map (fun y => match symbol_id y with Some i => [i] | None => [] end) ys.
Proof. induction ys as [| y ys IH]; intros a; cbn [numbered flat_map]; [reflexivity |]. unfold symbol_id at 1. destruct (ps_kind y); cbn [map fst app]; rewrite ?IH; reflexivity. Qed.
Lemma place_psymbols_numbers L offsets ys : forall l l', place_psymbols offsets l ys = ROk l' -> lk_ok l' = true ->
  (forall n, lk_labels l n = L n) -> (forall y v, In (y, v) (walk offsets (lk_address l) ys) -> L (lower (ps_name y)) = Some v) ->
  lk_symbols l' = rev (numbered L offsets (lk_address l) ys) ++ lk_symbols l.
Proof.
  induction ys as [| y ys IH]; intros l l' H O Hl Hw; cbn [place_psymbols numbered walk] in *.
  - apply ROk_inj in H. subst. reflexivity.
  - assert (S : forall v, L (lower (ps_name y)) = Some v -> forall n, set_label (lk_labels l) (ps_name y) v n = L n).
    { intros v E n. unfold set_label. destruct (list_eq_dec Z.eq_dec n (lower (ps_name y))) as [-> |]; [symmetry; exact E | apply Hl]. }
    destruct (ps_kind y) eqn:K.
    + apply do_ok in H. destruct H as (v & Av & H). apply add_int_ok in Av. destruct Av as (-> & _).
      rewrite (IH _ _ H O (S _ (Hw y _ (or_introl eq_refl)))); [reflexivity |]. intros z w I. apply (Hw z w). right. exact I.
    + apply do_ok in H. destruct H as (v & Av & H). apply add_int_ok in Av. destruct Av as (-> & _).
      rewrite (IH _ _ H O (S _ (Hw y _ (or_introl eq_refl)))); [cbn [lk_symbols lk_address rev]; rewrite <- app_assoc; reflexivity |]. intros z w I. apply (Hw z w). right. exact I.
    + destruct (lk_labels l (lower (ps_name y))) as [v |] eqn:E.
      * rewrite (IH _ _ H O Hl Hw). cbn [lk_symbols lk_address rev]. rewrite <- app_assoc. rewrite <- (Hl (lower (ps_name y))), E. reflexivity.
      * exfalso. destruct (place_psymbols_ok _ _ _ _ H) as (_ & B & _). specialize (B O). discriminate.
    + apply do_ok in H. destruct H as (e1 & A1 & H). apply do_ok in H. destruct H as (e2 & A2 & H).
      apply add_int_ok in A1. destruct A1 as (-> & _). apply round_up_ok in A2. destruct A2 as (-> & _).
      rewrite (IH _ _ H O (S _ (Hw y _ (or_introl eq_refl)))); [cbn [lk_symbols lk_address rev]; rewrite <- app_assoc; reflexivity |]. intros z w I. apply (Hw z w). right. exact I.
    + apply do_ok in H. destruct H as (v & Av & H). apply add_int_ok in Av. destruct Av as (-> & _).
      rewrite (IH _ _ H O (S _ (Hw y _ (or_introl eq_refl)))); [reflexivity |]. intros z w I. apply (Hw z w). right. exact I.
Qed.

Lemma walk_areas offsets ys : forall a y x, In (y, x) (combine (filter is_area ys) (stack a (flat_map area_size ys))) -> In (y, x) (walk offsets a ys).
Proof.
  induction ys as [| z ys IH]; intros a y x; cbn [filter flat_map walk]; [intros [] |]. unfold is_area at 1, area_size at 1. destruct (ps_kind z); cbn [app].
  1, 2, 5: intros I; right; apply (IH _ _ _ I). - intros I. apply (IH _ _ _ I). - cbn [stack combine]. intros [E | I]; [left; exact E | right; apply (IH _ _ _ I)].
Qed.
Lemma walk_segment offsets ys y seg off : In y ys -> (ps_kind y = Internal seg off \/ ps_kind y = Function_ seg off \/ exists id, ps_kind y = InternalID id seg off) ->
  forall a, In (y, at_key offsets seg + off) (walk offsets a ys).
Proof.
  intros I K. induction ys as [| z ys IH]; [destruct I |]. intros a. cbn [walk]. destruct I as [-> | I].
  - destruct K as [K | [K | (id & K)]]; rewrite K; left; reflexivity.
  - destruct (ps_kind z); try (right; apply IH, I); apply IH, I.
Qed.
Lemma symbol_walk f a y v : NoDup (map sg_id (pf_segments f)) -> In y (pf_symbols f) -> symbol_at f a y v ->
  In (y, v) (walk (offsets_at f a) (behind a (segment_sizes f)) (pf_symbols f)).
Proof.
  intros D I S. destruct S as [seg off s x K P E | seg off s x K P E | id seg off s x K P E | x P].
  1-3: rewrite <- (offsets_found f a s x D P), E; apply walk_segment; [exact I |]; rewrite K; eauto.
  apply walk_areas, P.
Qed.
Lemma walk_numbered L offsets ys : forall a y v id, In (y, v) (walk offsets a ys) -> symbol_id y = Some id -> In (id, v) (numbered L offsets a ys).
Proof.
  induction ys as [| z ys IH]; intros a y v id I S; cbn [walk numbered] in *; [destruct I |].
  destruct (ps_kind z) eqn:K; try (destruct I as [E | I]; [inversion E; subst; unfold symbol_id in S; rewrite K in S; try discriminate; inversion S; subst; left; reflexivity |]);
    try (right; eapply IH; eassumption); eapply IH; eassumption.
Qed.
Lemma external_numbered L offsets ys y id v : In y ys -> ps_kind y = External id -> L (lower (ps_name y)) = Some v -> forall a, In (id, s32 v) (numbered L offsets a ys).
Proof.
  intros I K E. induction ys as [| z ys IH]; [destruct I |]. intros a. cbn [numbered]. destruct I as [-> | I].
  - rewrite K, E. left. reflexivity.
  - destruct (ps_kind z); try (right; apply IH, I); apply IH, I.
Qed.
