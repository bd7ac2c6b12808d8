(** Symbol data: each module holds what was announced for it. *)

Require Import ZArith List Bool String Ascii Lia ZifyBool Permutation Sorted.
From Verif Require Import Ints Res SymfileModel SymfileSpec.
Import ListNotations.
Local Open Scope Z_scope.

Lemma update_nth_length {A} n (f : A -> A) l : List.length (update_nth n f l) = List.length l.
Proof. revert n. induction l as [|x l IH]; intros n; [reflexivity|]. destruct n; cbn; [reflexivity|rewrite IH; reflexivity]. Qed.
Lemma update_nth_nth {A} n (f : A -> A) l i :
  nth_error (update_nth n f l) i = if Nat.eqb i n then option_map f (nth_error l i) else nth_error l i.
Proof.
  revert n i. induction l as [|x l IH]; intros n i.
  - cbn. destruct i, (Nat.eqb _ n); reflexivity.
  - destruct n as [|n]; cbn [update_nth]; destruct i as [|i]; try reflexivity. cbn [nth_error Nat.eqb]. apply IH.
Qed.
Lemma update_nth_map {A B} n (f : A -> A) (g : A -> B) l : (forall x, g (f x) = g x) -> map g (update_nth n f l) = map g l.
Proof.
  intros H. revert n. induction l as [|x l IH]; intros n; [reflexivity|]. destruct n; cbn; [rewrite H; reflexivity|rewrite IH; reflexivity].
Qed.

(* ---- sets of data ---- *)

Lemma rank_inj t t' : type_rank t = type_rank t' -> t = t'.
Proof. destruct t, t'; cbn; intros H; try reflexivity; discriminate. Qed.
Lemma data_lt_spec a n t a' n' t' : data_lt (a, n, t) (a', n', t') = true <->
  a < a' \/ (a = a' /\ (n < n' \/ (n = n' /\ type_rank t < type_rank t'))).
Proof.
  unfold data_lt. destruct (Z.eqb_spec a a') as [->|]; cbn [negb]; [|lia].
  destruct (Z.eqb_spec n n') as [->|]; cbn [negb]; lia.
Qed.
Lemma data_trichotomy x y : data_lt x y = false -> data_lt y x = false -> x = y.
Proof.
  destruct x as [[a n] t], y as [[a' n'] t']. intros H1 H2.
  apply not_true_iff_false in H1, H2. rewrite data_lt_spec in H1, H2.
  assert (a = a') by lia. assert (n = n') by lia. subst. f_equal. apply rank_inj. lia.
Qed.
Lemma data_trans x y z : data_lt x y = true -> data_lt y z = true -> data_lt x z = true.
Proof. destruct x as [[a n] t], y as [[a' n'] t'], z as [[a2 n2] t2]. rewrite !data_lt_spec. lia. Qed.
Lemma data_irrefl x : data_lt x x = false.
Proof. destruct x as [[a n] t]. apply not_true_iff_false. rewrite data_lt_spec. lia. Qed.
Definition dlt x y := data_lt x y = true.

Lemma set_insert_in x y l : In y (set_insert x l) <-> y = x \/ In y l.
Proof.
  induction l as [|z l IH]; cbn [set_insert In]; [intuition|].
  destruct (data_lt x z) eqn:E1; [cbn [In]; intuition|].
  destruct (data_lt z x) eqn:E2; cbn [In]; [rewrite IH; intuition|].
  rewrite (data_trichotomy _ _ E1 E2). intuition.
Qed.
Lemma set_insert_sorted x l : StronglySorted dlt l -> StronglySorted dlt (set_insert x l).
Proof.
  induction 1 as [|y l Hs IH Hf]; cbn [set_insert]; [repeat constructor|].
  destruct (data_lt x y) eqn:E1.
  - constructor; [constructor; assumption|]. constructor; [exact E1|]. eapply Forall_impl; [|exact Hf].
    intros z Hz. apply (data_trans _ y); assumption.
  - destruct (data_lt y x) eqn:E2; [|constructor; assumption].
    constructor; [exact IH|]. apply Forall_forall. intros z Hz. apply set_insert_in in Hz.
    destruct Hz as [->|Hz]; [exact E2|]. rewrite Forall_forall in Hf. apply Hf. exact Hz.
Qed.
Lemma sorted_nodup l : StronglySorted dlt l -> NoDup l.
Proof.
  induction 1 as [|y l Hs IH Hf]; constructor; [|exact IH]. intros Hin. rewrite Forall_forall in Hf.
  specialize (Hf _ Hin). unfold dlt in Hf. rewrite data_irrefl in Hf. discriminate.
Qed.

(* ---- labels ---- *)

Definition has_label (l : list (Z * string)) a n := existsb (fun '(a', n') => (a' =? a) && String.eqb n' n) l.
Lemma has_label_in l a n : has_label l a n = true <-> In (a, n) l.
Proof.
  unfold has_label. rewrite existsb_exists. split.
  - intros ([a' n'] & Hin & H). apply andb_true_iff in H. destruct H as [H1 H2].
    apply Z.eqb_eq in H1. apply String.eqb_eq in H2. subst. exact Hin.
  - intros H. exists (a, n). split; [exact H|]. rewrite Z.eqb_refl, String.eqb_refl. reflexivity.
Qed.

(* ---- the invariant ---- *)

Record minv (m : module) (h : list sym_op) : Prop := mkMinv {
  mi_nodup : NoDup (m_symbols m);
  mi_sorted : StronglySorted dlt (m_data m);
  mi_label : forall a n, In (a, n) (m_symbols m) <-> label_of (m_file m) a n h;
  mi_data : forall d, In d (m_data m) <-> data_of (m_file m) d h }.

Record inv (s : symdata) (h : list sym_op) : Prop := mkInv {
  i_enabled : s_enabled s = enabled h;
  i_files : NoDup (map m_file (s_modules s));
  i_zero : exists m ms, s_modules s = m :: ms /\ m_file m = None;
  i_current : exists m, nth_error (s_modules s) (s_current s) = Some m /\ m_file m = open_module h;
  i_modules : forall m, In m (s_modules s) -> minv m h;
  i_labels : forall f a n, label_of f a n h -> In f (map m_file (s_modules s));
  i_datas : forall f d, data_of f d h -> In f (map m_file (s_modules s)) }.

Lemma label_of_cons f a n o h :
  label_of f a n (o :: h) <-> (o = SLabel a n /\ open_module h = f /\ enabled h = true) \/ label_of f a n h.
Proof.
  split.
  - intros (after & before & E & H). destruct after as [|x after]; cbn [app] in E; injection E as -> E.
    + left. subst. auto.
    + right. exists after, before. auto.
  - intros [(-> & H1 & H2)|(after & before & E & H)].
    + exists [], h. auto.
    + exists (o :: after), before. rewrite E. auto.
Qed.
Definition data_op (d : Z * Z * data_type) : sym_op := let '(a, n, t) := d in SData a n t.
Lemma data_of_cons f d o h :
  data_of f d (o :: h) <-> (o = data_op d /\ open_module h = f /\ enabled h = true) \/ data_of f d h.
Proof.
  split.
  - intros (after & before & E & H). destruct after as [|x after]; cbn [app] in E; injection E as -> E.
    + left. subst. auto.
    + right. exists after, before. auto.
  - intros [(-> & H1 & H2)|(after & before & E & H)].
    + exists [], h. auto.
    + exists (o :: after), before. rewrite E. auto.
Qed.

(** Events other than labels and data change neither. *)
Definition plain (o : sym_op) : Prop := (forall a n, o <> SLabel a n) /\ (forall a n t, o <> SData a n t).
Lemma minv_plain m h o : plain o -> minv m h -> minv m (o :: h).
Proof.
  intros [P1 P2] [A B C D]. constructor; try assumption.
  - intros a n. rewrite C, label_of_cons. split; [auto|]. intros [[E _]|H]; [exfalso; apply (P1 _ _ E)|exact H].
  - intros d. rewrite D, data_of_cons. split; [auto|]. intros [[E _]|H]; [|exact H].
    exfalso. destruct d as [[a n] t]. apply (P2 _ _ _ E).
Qed.
Lemma label_plain f a n o h : plain o -> label_of f a n (o :: h) -> label_of f a n h.
Proof. intros [P _] H. apply label_of_cons in H. destruct H as [[E _]|H]; [exfalso; apply (P _ _ E)|exact H]. Qed.
Lemma data_plain f d o h : plain o -> data_of f d (o :: h) -> data_of f d h.
Proof. intros [_ P] H. apply data_of_cons in H. destruct H as [[E _]|H]; [destruct d as [[? ?] ?]; exfalso; apply (P _ _ _ E)|exact H]. Qed.

Lemma module_unique s h m i : inv s h -> nth_error (s_modules s) i = Some m -> m_file m = open_module h -> i = s_current s.
Proof.
  intros I Hi Hf. destruct (i_current _ _ I) as (m' & Hc & Hf').
  assert (L1 : (i < List.length (map m_file (s_modules s)))%nat).
  { rewrite map_length. apply nth_error_Some. congruence. }
  assert (L2 : (s_current s < List.length (map m_file (s_modules s)))%nat).
  { rewrite map_length. apply nth_error_Some. congruence. }
  apply (proj1 (NoDup_nth_error (map m_file (s_modules s))) (i_files _ _ I)); [exact L1|].
  rewrite !nth_error_map, Hi, Hc. cbn. congruence.
Qed.

Lemma inv_label s h a n : inv s h -> inv (add_label s a n) (SLabel a n :: h).
Proof.
  intros I. pose proof I as [En Fi Ze Cu Mo La Da]. unfold add_label. rewrite En.
  destruct (enabled h) eqn:Eh.
  - set (f := fun m : module => if has_label (m_symbols m) a n then m
              else mkModule (m_file m) (m_symbols m ++ [(a, n)]) (m_functions m) (m_data m)).
    change (inv (in_module s f) (SLabel a n :: h)).
    assert (Hf : forall m, m_file (f m) = m_file m) by (intros m; unfold f; destruct (has_label _ _ _); reflexivity).
    assert (Hmap : map m_file (update_nth (s_current s) f (s_modules s)) = map m_file (s_modules s)) by (apply update_nth_map; exact Hf).
    assert (Hfiles : In (open_module h) (map m_file (s_modules s))).
    { destruct Cu as (m & Hc & Hm). rewrite <- Hm. apply in_map. apply nth_error_In in Hc. exact Hc. }
    constructor; cbn [in_module s_enabled s_modules s_current s_function enabled open_module].
    + congruence.
    + rewrite Hmap. exact Fi.
    + destruct Ze as (m & ms & -> & Hz). destruct (s_current s); cbn [update_nth]; eexists _, _; (split; [reflexivity|]); rewrite ?Hf; exact Hz.
    + destruct Cu as (m & Hc & Hm). exists (f m). rewrite update_nth_nth, Nat.eqb_refl, Hc. split; [reflexivity|]. rewrite Hf. exact Hm.
    + intros m Hin. apply In_nth_error in Hin. destruct Hin as [i Hi]. rewrite update_nth_nth in Hi.
      destruct (Nat.eqb_spec i (s_current s)) as [Ei|Hne]; [subst i|].
      * destruct Cu as (m0 & Hc & Hm0). rewrite Hc in Hi. cbn [option_map] in Hi. injection Hi as <-.
        pose proof (Mo m0 (nth_error_In _ _ Hc)) as [A B C D].
        constructor.
        -- unfold f. destruct (has_label (m_symbols m0) a n) eqn:E; [exact A|]. cbn [m_symbols].
           assert (Hn : ~ In (a, n) (m_symbols m0)) by (rewrite <- has_label_in, E; discriminate).
           apply (Permutation_NoDup (l := (a, n) :: m_symbols m0)); [apply Permutation_cons_append|]. constructor; assumption.
        -- unfold f. destruct (has_label _ _ _); exact B.
        -- intros a' n'. rewrite Hf, label_of_cons, <- C. unfold f.
           destruct (has_label (m_symbols m0) a n) eqn:E; cbn [m_symbols].
           ++ split; [auto|]. intros [(E' & _)|H]; [|exact H]. injection E' as <- <-. apply has_label_in. exact E.
           ++ rewrite in_app_iff. cbn [In]. split.
              ** intros [H|[H|[]]]; [right; exact H|]. injection H as <- <-. left. auto.
              ** intros [(E' & _)|H]; [|left; exact H]. injection E' as <- <-. auto.
        -- intros d. rewrite Hf, data_of_cons.
           assert (Hd : m_data (f m0) = m_data m0) by (unfold f; destruct (has_label _ _ _); reflexivity).
           rewrite Hd, D. split; [auto|]. intros [(E' & _)|H]; [destruct d as [[? ?] ?]; discriminate|exact H].
      * pose proof (Mo m (nth_error_In _ _ Hi)) as [A B C D]. constructor; try assumption.
        -- intros a' n'. rewrite label_of_cons, <- C. split; [auto|]. intros [(E' & E2 & _)|H]; [|exact H].
           exfalso. apply Hne. apply (module_unique s h m i I Hi). congruence.
        -- intros d. rewrite data_of_cons, D. split; [auto|]. intros [(E' & _)|H]; [destruct d as [[? ?] ?]; discriminate|exact H].
    + intros f' a' n' H. rewrite Hmap. apply label_of_cons in H. destruct H as [(_ & <- & _)|H]; [exact Hfiles|apply (La _ _ _ H)].
    + intros f' d H. rewrite Hmap. apply data_of_cons in H. destruct H as [(E' & _)|H]; [destruct d as [[? ?] ?]; discriminate|apply (Da _ _ H)].
  - constructor; cbn [enabled open_module]; try assumption; try congruence.
    + intros m Hin. pose proof (Mo m Hin) as [A B C D]. constructor; try assumption.
      * intros a' n'. rewrite label_of_cons, <- C. split; [auto|]. intros [(_ & _ & E')|H]; [congruence|exact H].
      * intros d. rewrite data_of_cons, D. split; [auto|]. intros [(_ & _ & E')|H]; [congruence|exact H].
    + intros f' a' n' H. apply label_of_cons in H. destruct H as [(_ & _ & E')|H]; [congruence|apply (La _ _ _ H)].
    + intros f' d H. apply data_of_cons in H. destruct H as [(_ & _ & E')|H]; [congruence|apply (Da _ _ H)].
Qed.

Lemma inv_data s h a n t : inv s h -> inv (add_data s a n t) (SData a n t :: h).
Proof.
  intros I. pose proof I as [En Fi Ze Cu Mo La Da]. unfold add_data. rewrite En.
  destruct (enabled h) eqn:Eh.
  - set (f := fun m : module => mkModule (m_file m) (m_symbols m) (m_functions m) (set_insert (a, n, t) (m_data m))).
    assert (Hf : forall m, m_file (f m) = m_file m) by reflexivity.
    assert (Hmap : map m_file (update_nth (s_current s) f (s_modules s)) = map m_file (s_modules s)) by (apply update_nth_map; exact Hf).
    assert (Hfiles : In (open_module h) (map m_file (s_modules s))).
    { destruct Cu as (m & Hc & Hm). rewrite <- Hm. apply in_map. apply nth_error_In in Hc. exact Hc. }
    constructor; cbn [in_module s_enabled s_modules s_current s_function enabled open_module]; fold f.
    + congruence.
    + rewrite Hmap. exact Fi.
    + destruct Ze as (m & ms & -> & Hz). destruct (s_current s); cbn [update_nth]; eexists _, _; (split; [reflexivity|]); rewrite ?Hf; exact Hz.
    + destruct Cu as (m & Hc & Hm). exists (f m). rewrite update_nth_nth, Nat.eqb_refl, Hc. split; [reflexivity|]. rewrite Hf. exact Hm.
    + intros m Hin. apply In_nth_error in Hin. destruct Hin as [i Hi]. rewrite update_nth_nth in Hi.
      destruct (Nat.eqb_spec i (s_current s)) as [Ei|Hne]; [subst i|].
      * destruct Cu as (m0 & Hc & Hm0). rewrite Hc in Hi. cbn [option_map] in Hi. injection Hi as <-.
        pose proof (Mo m0 (nth_error_In _ _ Hc)) as [A B C D].
        constructor; cbn [f m_symbols m_data m_file].
        -- exact A.
        -- apply set_insert_sorted. exact B.
        -- intros a' n'. rewrite label_of_cons, <- C. split; [auto|]. intros [(E' & _)|H]; [discriminate|exact H].
        -- intros d. rewrite set_insert_in, data_of_cons, <- D. split.
           ++ intros [->|H]; [left; auto|right; exact H].
           ++ intros [(E' & _)|H]; [|right; exact H]. left. destruct d as [[a' n'] t']. cbn in E'. congruence.
      * pose proof (Mo m (nth_error_In _ _ Hi)) as [A B C D]. constructor; try assumption.
        -- intros a' n'. rewrite label_of_cons, <- C. split; [auto|]. intros [(E' & _)|H]; [discriminate|exact H].
        -- intros d. rewrite data_of_cons, D. split; [auto|]. intros [(_ & E2 & _)|H]; [|exact H].
           exfalso. apply Hne. apply (module_unique s h m i I Hi). congruence.
    + intros f' a' n' H. rewrite Hmap. apply label_of_cons in H. destruct H as [(E' & _)|H]; [discriminate|apply (La _ _ _ H)].
    + intros f' d H. rewrite Hmap. apply data_of_cons in H. destruct H as [(_ & <- & _)|H]; [exact Hfiles|apply (Da _ _ H)].
  - constructor; cbn [enabled open_module]; try assumption; try congruence.
    + intros m Hin. pose proof (Mo m Hin) as [A B C D]. constructor; try assumption.
      * intros a' n'. rewrite label_of_cons, <- C. split; [auto|]. intros [(_ & _ & E')|H]; [congruence|exact H].
      * intros d. rewrite data_of_cons, D. split; [auto|]. intros [(_ & _ & E')|H]; [congruence|exact H].
    + intros f' a' n' H. apply label_of_cons in H. destruct H as [(_ & _ & E')|H]; [congruence|apply (La _ _ _ H)].
    + intros f' d H. apply data_of_cons in H. destruct H as [(_ & _ & E')|H]; [congruence|apply (Da _ _ H)].
Qed.

Lemma find_module_spec f l : forall i,
  match find_module f l i with
  | Some j => exists m, nth_error l (j - i) = Some m /\ m_file m = Some f /\ (i <= j)%nat
  | None => ~ In (Some f) (map m_file l)
  end.
Proof.
  induction l as [|m l IH]; intros i; cbn [find_module]; [intros []|].
  destruct (file_eqb (m_file m) (Some f)) eqn:E.
  - exists m. rewrite Nat.sub_diag. repeat split; [|lia]. destruct (m_file m); [|discriminate]. cbn in E. apply Nat.eqb_eq in E. congruence.
  - specialize (IH (S i)). destruct (find_module f l (S i)) as [j|].
    + destruct IH as (m' & H1 & H2 & H3). exists m'. split; [|split; [exact H2|lia]].
      replace (j - i)%nat with (S (j - S i)) by lia. exact H1.
    + cbn [map]. intros [H|H]; [|apply IH; exact H]. rewrite H in E. cbn in E. rewrite Nat.eqb_refl in E. discriminate.
Qed.

(** Updates that keep labels, data and files of every module. *)
Lemma inv_same s h s' o : plain o -> inv s h -> s_enabled s' = enabled (o :: h) ->
  (exists m, nth_error (s_modules s') (s_current s') = Some m /\ m_file m = open_module (o :: h)) ->
  Forall2 (fun m m' => m_file m' = m_file m /\ m_symbols m' = m_symbols m /\ m_data m' = m_data m) (s_modules s) (s_modules s') ->
  inv s' (o :: h).
Proof.
  intros P [En Fi Ze Cu Mo La Da] He Hc F.
  assert (Hmap : map m_file (s_modules s') = map m_file (s_modules s)).
  { induction F as [|x y l l' (A & _) F IH]; [reflexivity|]. cbn. rewrite A. f_equal.
    clear - F. induction F as [|x y l l' (A & _) F IH]; [reflexivity|]. cbn. rewrite A, IH. reflexivity. }
  constructor.
  - exact He.
  - rewrite Hmap. exact Fi.
  - destruct Ze as (m & ms & E & Hz). rewrite E in F. inversion F as [|x y l l' (A & _) F' E1 E2]; subst. exists y, l'.
    split; [congruence|congruence].
  - exact Hc.
  - intros m' Hin. apply In_nth_error in Hin. destruct Hin as [i Hi].
    assert (Hm : exists m, In m (s_modules s) /\ m_file m' = m_file m /\ m_symbols m' = m_symbols m /\ m_data m' = m_data m).
    { clear - F Hi. revert i Hi. induction F as [|x y l l' A F IH]; intros i Hi; [destruct i; discriminate|].
      destruct i as [|i]; [injection Hi as <-; exists x; split; [left; reflexivity|exact A]|].
      destruct (IH i Hi) as (m & Hin & B). exists m. split; [right; exact Hin|exact B]. }
    destruct Hm as (m & Hin & E1 & E2 & E3).
    pose proof (minv_plain m h o P (Mo m Hin)) as [A B C D]. constructor; rewrite ?E1, ?E2, ?E3; assumption.
  - intros f a n H. rewrite Hmap. apply (La f a n). apply (label_plain _ _ _ _ _ P H).
  - intros f d H. rewrite Hmap. apply (Da f d). apply (data_plain _ _ _ _ P H).
Qed.

Lemma forall2_refl_modules l : Forall2 (fun m m' : module => m_file m' = m_file m /\ m_symbols m' = m_symbols m /\ m_data m' = m_data m) l l.
Proof. induction l; constructor; auto. Qed.
Lemma forall2_update l n f : (forall m, m_file (f m) = m_file m /\ m_symbols (f m) = m_symbols m /\ m_data (f m) = m_data m) ->
  Forall2 (fun m m' : module => m_file m' = m_file m /\ m_symbols m' = m_symbols m /\ m_data m' = m_data m) l (update_nth n f l).
Proof.
  intros H. revert n. induction l as [|x l IH]; intros n; [constructor|]. destruct n; cbn [update_nth]; constructor; auto.
  apply forall2_refl_modules.
Qed.

Lemma inv_start_module s h f : inv s h -> inv (start_module s f) (SStartModule f :: h).
Proof.
  intros I. unfold start_module. pose proof (find_module_spec f (s_modules s) 0) as Q.
  assert (P : plain (SStartModule f)) by (split; discriminate).
  destruct (find_module f (s_modules s) 0) as [i|].
  - destruct Q as (m & H1 & H2 & _). rewrite Nat.sub_0_r in H1.
    apply (inv_same s h); [exact P|exact I| | |apply forall2_refl_modules].
    + cbn. apply (i_enabled _ _ I).
    + exists m. cbn [s_modules s_current open_module]. auto.
  - destruct I as [En Fi Ze Cu Mo La Da]. constructor; cbn [s_enabled s_modules s_current enabled open_module].
    + exact En.
    + rewrite map_app. cbn [map m_file]. apply (Permutation_NoDup (l := Some f :: map m_file (s_modules s))); [apply Permutation_cons_append|].
      constructor; assumption.
    + destruct Ze as (m & ms & -> & Hz). cbn [app]. eauto.
    + eexists. rewrite nth_error_app2 by lia. rewrite Nat.sub_diag. split; reflexivity.
    + intros m Hin. apply in_app_or in Hin. destruct Hin as [Hin|[<-|[]]].
      * apply minv_plain; [exact P|apply Mo; exact Hin].
      * constructor; cbn [m_symbols m_data m_file].
        -- constructor.
        -- constructor.
        -- intros a n. split; [intros []|]. intros H. apply (label_plain _ _ _ _ _ P) in H. apply La in H. contradiction.
        -- intros d. split; [intros []|]. intros H. apply (data_plain _ _ _ _ P) in H. apply Da in H. contradiction.
    + intros f' a n H. apply (label_plain _ _ _ _ _ P) in H. rewrite map_app. apply in_or_app. left. apply (La _ _ _ H).
    + intros f' d H. apply (data_plain _ _ _ _ P) in H. rewrite map_app. apply in_or_app. left. apply (Da _ _ H).
Qed.

Lemma inv_end_module s h f : inv s h -> inv (end_module s f) (SEndModule f :: h).
Proof.
  intros I. assert (P : plain (SEndModule f)) by (split; discriminate).
  destruct (i_current _ _ I) as (m & Hc & Hm). destruct (i_zero _ _ I) as (m0 & ms & Hz & Hm0).
  unfold end_module. rewrite Hc, Hm.
  destruct (open_module h) as [g|] eqn:Eo; cbn [file_eqb negb].
  - destruct (Nat.eqb_spec g f) as [->|Hne]; cbn [negb].
    + destruct (Nat.eqb_spec (s_current s) 0) as [E0|E0].
      { rewrite E0, Hz in Hc. cbn in Hc. congruence. }
      assert (K : forall er, inv (mkSym (s_enabled s) (s_modules s) 0 None er) (SEndModule f :: h)).
      { intros er. apply (inv_same s h); [exact P|exact I| | |apply forall2_refl_modules].
        - cbn. apply (i_enabled _ _ I).
        - exists m0. cbn [s_modules s_current open_module]. rewrite Hz, Eo, Nat.eqb_refl. auto. }
      destruct (s_function s); apply K.
    + apply (inv_same s h); [exact P|exact I| | |apply forall2_refl_modules].
      * cbn. apply (i_enabled _ _ I).
      * exists m. cbn [open_module]. rewrite Eo. destruct (Nat.eqb_spec f g); [congruence|]. auto.
  - apply (inv_same s h); [exact P|exact I| | |apply forall2_refl_modules].
    + cbn. apply (i_enabled _ _ I).
    + exists m. cbn [open_module]. rewrite Eo. auto.
Qed.

Lemma inv_functions s h o fn er f : plain o -> enabled (o :: h) = enabled h -> open_module (o :: h) = open_module h ->
  (forall m, m_file (f m) = m_file m /\ m_symbols (f m) = m_symbols m /\ m_data (f m) = m_data m) ->
  inv s h -> inv (mkSym (s_enabled s) (update_nth (s_current s) f (s_modules s)) (s_current s) fn er) (o :: h).
Proof.
  intros P He Ho Hf I. apply (inv_same s h); [exact P|exact I| | |apply forall2_update; exact Hf].
  - cbn [s_enabled]. rewrite He. apply (i_enabled _ _ I).
  - destruct (i_current _ _ I) as (m & Hc & Hm). exists (f m). cbn [s_modules s_current].
    rewrite update_nth_nth, Nat.eqb_refl, Hc, Ho. split; [reflexivity|]. destruct (Hf m) as [A _]. congruence.
Qed.

Lemma update_id {A} n (l : list A) : update_nth n (fun x => x) l = l.
Proof. revert n. induction l as [|x l IH]; intros n; [reflexivity|]. destruct n; cbn; [reflexivity|rewrite IH; reflexivity]. Qed.
Lemma update_update {A} n (f g : A -> A) l : update_nth n g (update_nth n f l) = update_nth n (fun x => g (f x)) l.
Proof. revert n. induction l as [|x l IH]; intros n; [reflexivity|]. destruct n; cbn; [reflexivity|rewrite IH; reflexivity]. Qed.

Lemma end_function_form s a s' : end_function s a = ROk s' ->
  exists f er, s' = mkSym (s_enabled s) (update_nth (s_current s) f (s_modules s)) (s_current s) None er /\
    forall m, m_file (f m) = m_file m /\ m_symbols (f m) = m_symbols m /\ m_data (f m) = m_data m.
Proof.
  unfold end_function. destruct (s_function s) as [i|].
  - destruct (nth_error (s_modules s) (s_current s)) as [m|]; [|discriminate].
    destruct (i <? _)%nat; [|discriminate]. intros [= <-]. eexists _, _. cbn [in_module s_enabled s_modules s_current s_errors].
    split; [reflexivity|]. intros m'. cbn. auto.
  - intros [= <-]. exists (fun m => m), (S (s_errors s)). rewrite update_id. split; [reflexivity|auto].
Qed.

Lemma inv_step s h o s' : inv s h -> sym_step s o = ROk s' -> inv s' (o :: h).
Proof.
  intros I E. destruct o as [a n|a n t|f|f|a|a|b]; cbn [sym_step] in E.
  - injection E as <-. apply inv_label. exact I.
  - injection E as <-. apply inv_data. exact I.
  - injection E as <-. apply inv_start_module. exact I.
  - injection E as <-. apply inv_end_module. exact I.
  - unfold start_function in E.
    assert (K : exists s1 f er fn, match s_function s with Some _ => end_function s a | None => ROk s end = ROk s1 /\
       s1 = mkSym (s_enabled s) (update_nth (s_current s) f (s_modules s)) (s_current s) fn er /\
       forall m, m_file (f m) = m_file m /\ m_symbols (f m) = m_symbols m /\ m_data (f m) = m_data m).
    { destruct (s_function s) as [i|] eqn:Ef.
      - destruct (end_function s a) as [s1| |] eqn:E1; cbn [rbind] in E; try discriminate.
        destruct (end_function_form _ _ _ E1) as (f & er & -> & Hf). exists (mkSym (s_enabled s) (update_nth (s_current s) f (s_modules s)) (s_current s) None er), f, er, None. auto.
      - exists s, (fun m => m), (s_errors s), None. rewrite update_id. split; [reflexivity|split; [|auto]].
        destruct s; cbn in *; congruence. }
    destruct K as (s1 & f & er & fn & E1 & -> & Hf). rewrite E1 in E. cbn [rbind s_modules s_current] in E.
    destruct (nth_error _ _); [|discriminate]. injection E as <-. cbn [in_module s_enabled s_modules s_current s_errors].
    rewrite update_update. apply inv_functions; [split; discriminate|reflexivity|reflexivity| |exact I].
    intros m1. cbn [m_file m_symbols m_data]. apply Hf.
  - destruct (end_function_form _ _ _ E) as (f & er & -> & Hf).
    apply inv_functions; [split; discriminate|reflexivity|reflexivity|exact Hf|exact I].
  - injection E as <-. apply (inv_same s h); [split; discriminate|exact I|reflexivity| |apply forall2_refl_modules].
    cbn [set_enabled s_modules s_current open_module]. apply (i_current _ _ I).
Qed.

Lemma inv_new : inv sym_new [].
Proof.
  constructor; cbn; try reflexivity.
  - repeat constructor. intros [].
  - eauto.
  - eauto.
  - intros m [<-|[]]. constructor; cbn; try constructor.
    + intros []. + intros (x & y & E & _). destruct x; discriminate.
    + intros []. + intros (x & y & E & _). destruct x; discriminate.
  - intros f a n (x & y & E & _). destruct x; discriminate.
  - intros f d (x & y & E & _). destruct x; discriminate.
Qed.

Lemma run_inv ops : forall s h s', inv s h -> sym_run s ops = ROk s' -> inv s' (rev ops ++ h).
Proof.
  induction ops as [|o ops IH]; intros s h s' I E; cbn [sym_run] in E.
  - injection E as <-. exact I.
  - destruct (sym_step s o) as [s1| |] eqn:E1; cbn [rbind] in E; try discriminate.
    cbn [rev]. rewrite <- app_assoc. cbn [app]. apply (IH s1); [apply (inv_step s); assumption|exact E].
Qed.
Lemma run_new ops s : sym_run sym_new ops = ROk s -> inv s (rev ops).
Proof. intros E. rewrite <- (app_nil_r (rev ops)). apply (run_inv ops sym_new [] s inv_new E). Qed.

(* ---- functions, without modules ---- *)

(** The closing notification of the open function is still to come. *)
Definition pending_functions (s : symdata) (ops : list sym_op) : list (Z * Z) :=
  match s_modules s with
  | m :: _ =>
      match s_function s with
      | None => m_functions m
      | Some i =>
          match close ops with
          | Some b => update_nth i (fun '(a, _) => (a, (b - a) mod 2 ^ 64)) (m_functions m)
          | None => m_functions m
          end
      end
  | [] => []
  end.

Record fstate (s : symdata) : Prop := mkFstate {
  fs_zero : exists m ms, s_modules s = m :: ms;
  fs_current : s_current s = 0%nat;
  fs_fun : forall i, s_function s = Some i -> exists m ms l a, s_modules s = m :: ms /\ m_functions m = l ++ [(a, 0)] /\ List.length l = i }.

Lemma update_last {A} (l : list A) x f : update_nth (List.length l) f (l ++ [x]) = l ++ [f x].
Proof. induction l as [|y l IH]; [reflexivity|]. cbn. rewrite IH. reflexivity. Qed.

Lemma functions_run ops : module_free ops -> forall s, fstate s ->
  exists s', sym_run s ops = ROk s' /\ (exists m ms, s_modules s' = m :: ms /\ m_functions m = pending_functions s ops ++ functions ops).
Proof.
  intros MF s Fs. assert (MF' : forall o ops', ops = o :: ops' -> module_free ops') .
  { intros o ops' -> f. destruct (MF f) as [A B]. split; intros Q; [apply A|apply B]; right; exact Q. }
  revert s Fs. induction ops as [|o ops IH]; intros s Fs.
  - exists s. split; [reflexivity|]. destruct (fs_zero _ Fs) as (m & ms & E). exists m, ms. split; [exact E|].
    unfold pending_functions. rewrite E. cbn [functions close]. rewrite app_nil_r. destruct (s_function s); reflexivity.
  - specialize (IH (MF' o ops eq_refl)).
    assert (IH' : forall s, fstate s -> exists s', sym_run s ops = ROk s' /\ (exists m ms, s_modules s' = m :: ms /\ m_functions m = pending_functions s ops ++ functions ops)).
    { apply IH. intros o' ops' ->. intros f. destruct (MF f) as [A B]. split; intros Q; [apply A|apply B]; right; right; exact Q. }
    clear IH MF'. cbn [sym_run].
    assert (Zero : forall f s1, fstate s1 -> (forall m, m_functions (f m) = m_functions m) ->
      s_current s1 = 0%nat -> fstate (in_module s1 f) /\ pending_functions (in_module s1 f) ops = pending_functions s1 ops).
    { intros f s1 [(m & ms & Hz) Hcur Hfun] Hf H0. split.
      - constructor; cbn [in_module s_modules s_current s_function].
        + rewrite Hz, Hcur. cbn. eauto.
        + exact Hcur.
        + intros i Hi. destruct (Hfun i Hi) as (m' & ms' & l & a & E1 & E2 & E3). rewrite E1, Hcur. cbn.
          exists (f m'), ms', l, a. rewrite Hf. auto.
      - unfold pending_functions. cbn [in_module s_modules s_function]. rewrite Hz, Hcur. cbn [update_nth]. rewrite Hf. reflexivity. }
    destruct o as [a n|a n t|f|f|a|a|b]; cbn [sym_step rbind functions].
    + assert (K : fstate (add_label s a n) /\ pending_functions (add_label s a n) ops = pending_functions s ops).
      { unfold add_label. destruct (s_enabled s); [|split; [exact Fs|reflexivity]].
        apply Zero; [exact Fs| |apply (fs_current _ Fs)]. intros m. destruct (existsb _ _); reflexivity. }
      destruct K as [K1 K2]. destruct (IH' _ K1) as (s' & E & m & ms & H1 & H2). exists s'. split; [exact E|].
      exists m, ms. split; [exact H1|]. rewrite H2, K2. reflexivity.
    + assert (K : fstate (add_data s a n t) /\ pending_functions (add_data s a n t) ops = pending_functions s ops).
      { unfold add_data. destruct (s_enabled s); [|split; [exact Fs|reflexivity]].
        apply Zero; [exact Fs| |apply (fs_current _ Fs)]. intros m. reflexivity. }
      destruct K as [K1 K2]. destruct (IH' _ K1) as (s' & E & m & ms & H1 & H2). exists s'. split; [exact E|].
      exists m, ms. split; [exact H1|]. rewrite H2, K2. reflexivity.
    + exfalso. destruct (MF f) as [A _]. apply A. left. reflexivity.
    + exfalso. destruct (MF f) as [_ A]. apply A. left. reflexivity.
    + (* start *)
      destruct Fs as [(m & ms & Hz) Hcur Hfun]. unfold start_function.
      set (s0 := match s_function s with Some _ => end_function s a | None => ROk s end).
      assert (K : exists s1 m1 fs1, s0 = ROk s1 /\ s_modules s1 = m1 :: ms /\ s_current s1 = 0%nat /\ m_functions m1 = fs1 /\
                  fs1 = pending_functions s (SStart a :: ops)).
      { unfold s0, pending_functions. rewrite Hz. cbn [close]. destruct (s_function s) as [i|] eqn:Ef.
        - destruct (Hfun i eq_refl) as (m' & ms' & l & a0 & E1 & E2 & E3). rewrite Hz in E1. injection E1 as <- <-.
          unfold end_function. rewrite Ef, Hcur, Hz. cbn [nth_error].
          rewrite (proj2 (Nat.ltb_lt _ _)) by (rewrite E2, app_length; cbn; lia).
          eexists _, _, _. split; [reflexivity|]. cbn [in_module s_modules s_current]. rewrite Hz, Hcur. cbn [update_nth].
          split; [reflexivity|split; [reflexivity|split; [reflexivity|]]]. cbn [m_functions].
          unfold u64, uwrap. reflexivity.
        - exists s, m, (m_functions m). repeat split; assumption. }
      destruct K as (s1 & m1 & fs1 & -> & Hz1 & Hc1 & Hf1 & Ep). cbn [rbind]. rewrite Hz1, Hc1. cbn [nth_error].
      set (s2 := mkSym _ _ _ _ _). cbn [in_module] in s2.
      assert (Fs2 : fstate s2).
      { constructor; unfold s2; cbn [in_module s_modules s_current s_function]; rewrite ?Hz1, ?Hc1; cbn [update_nth]; eauto.
        intros i [= <-]. eexists _, _, (m_functions m1), a. split; [reflexivity|]. cbn. auto. }
      destruct (IH' _ Fs2) as (s' & E & m' & ms' & H1 & H2). exists s'. split; [exact E|]. exists m', ms'. split; [exact H1|].
      rewrite H2. unfold pending_functions at 1. unfold s2. cbn [in_module s_modules s_current s_function].
      rewrite Hz1, Hc1. cbn [update_nth m_functions].
      destruct (close ops) as [b|] eqn:Ec.
      * rewrite update_last, <- app_assoc, Hf1, <- Ep. cbn [app]. reflexivity.
      * rewrite <- app_assoc, Hf1, <- Ep. cbn [app]. reflexivity.
    + (* end *)
      destruct Fs as [(m & ms & Hz) Hcur Hfun]. unfold end_function. destruct (s_function s) as [i|] eqn:Ef.
      * destruct (Hfun i eq_refl) as (m' & ms' & l & a0 & E1 & E2 & E3). rewrite Hz in E1. injection E1 as <- <-.
        rewrite Hcur, Hz. cbn [nth_error]. rewrite (proj2 (Nat.ltb_lt _ _)) by (rewrite E2, app_length; cbn; lia). cbn [rbind].
        set (s2 := mkSym _ _ _ _ _).
        assert (Fs2 : fstate s2).
        { constructor; unfold s2; cbn [in_module s_modules s_current s_function]; rewrite ?Hz, ?Hcur; cbn [update_nth]; eauto. discriminate. }
        destruct (IH' _ Fs2) as (s' & E & m' & ms' & H1 & H2). exists s'. split; [exact E|]. exists m', ms'. split; [exact H1|].
        rewrite H2. unfold pending_functions, s2. cbn [in_module s_modules s_current s_function]. rewrite Hz, Hcur, Ef. cbn [update_nth m_functions close].
        unfold u64, uwrap. reflexivity.
      * cbn [rbind]. set (s2 := mkSym _ _ _ _ _).
        assert (Fs2 : fstate s2).
        { constructor; unfold s2; cbn [s_modules s_current s_function]; try discriminate; eauto. }
        destruct (IH' _ Fs2) as (s' & E & m' & ms' & H1 & H2). exists s'. split; [exact E|]. exists m', ms'. split; [exact H1|].
        rewrite H2. unfold pending_functions, s2. cbn [s_modules s_function]. rewrite Hz, Ef. reflexivity.
    + assert (K : fstate (set_enabled s b)) by (destruct Fs; constructor; assumption).
      destruct (IH' _ K) as (s' & E & m & ms & H1 & H2). exists s'. split; [exact E|].
      exists m, ms. split; [exact H1|]. rewrite H2. reflexivity.
Qed.

Lemma fstate_new : fstate sym_new.
Proof. constructor; cbn; eauto. discriminate. Qed.

Lemma functions_new ops : module_free ops ->
  exists s, sym_run sym_new ops = ROk s /\ exists m ms, s_modules s = m :: ms /\ m_functions m = functions ops.
Proof. intros H. exact (functions_run ops H sym_new fstate_new). Qed.

Lemma module_free_one ops : module_free ops -> forall s s', sym_run s ops = ROk s' -> List.length (s_modules s') = List.length (s_modules s).
Proof.
  induction ops as [|o ops IH]; intros MF s s' E; cbn [sym_run] in E; [injection E as <-; reflexivity|].
  destruct (sym_step s o) as [s1| |] eqn:E1; cbn [rbind] in E; try discriminate.
  rewrite (IH ltac:(intros f; destruct (MF f) as [A B]; split; intros Q; [apply A|apply B]; right; exact Q) _ _ E).
  destruct o as [a n|a n t|f|f|a|a|b]; cbn [sym_step] in E1.
  - injection E1 as <-. unfold add_label. destruct (s_enabled s); [cbn; apply update_nth_length|reflexivity].
  - injection E1 as <-. unfold add_data. destruct (s_enabled s); [cbn; apply update_nth_length|reflexivity].
  - exfalso. destruct (MF f) as [A _]. apply A. left. reflexivity.
  - exfalso. destruct (MF f) as [_ A]. apply A. left. reflexivity.
  - unfold start_function in E1. destruct (match s_function s with Some _ => end_function s a | None => ROk s end) as [s2| |] eqn:E2; cbn [rbind] in E1; try discriminate.
    assert (L : List.length (s_modules s2) = List.length (s_modules s)).
    { destruct (s_function s); [|injection E2 as <-; reflexivity]. destruct (end_function_form _ _ _ E2) as (f & er & -> & _). cbn. apply update_nth_length. }
    destruct (nth_error _ _); [|discriminate]. injection E1 as <-. cbn [in_module s_modules]. rewrite update_nth_length. exact L.
  - destruct (end_function_form _ _ _ E1) as (f & er & -> & _). cbn. apply update_nth_length.
  - injection E1 as <-. reflexivity.
Qed.

(* ---- the sorted list ---- *)

Lemma string_lt_ltb x : forall y, string_lt x y = String.ltb x y.
Proof.
  unfold String.ltb. induction x as [|a x IH]; intros y; destruct y as [|b y]; try reflexivity.
  cbn [string_lt String.compare]. unfold Ascii.compare.
  destruct (N.compare_spec (N_of_ascii a) (N_of_ascii b)) as [E|E|E].
  - rewrite E. rewrite N.ltb_irrefl. rewrite IH. reflexivity.
  - rewrite (proj2 (N.ltb_lt _ _) E). reflexivity.
  - rewrite (proj2 (N.ltb_ge _ _)) by lia. rewrite (proj2 (N.ltb_lt _ _) E). reflexivity.
Qed.

Lemma compare_antisym x : forall y, String.compare x y = CompOpp (String.compare y x).
Proof.
  induction x as [|a x IH]; intros y; destruct y as [|b y]; try reflexivity.
  cbn [String.compare]. unfold Ascii.compare. rewrite N.compare_antisym.
  destruct (N.compare_spec (N_of_ascii b) (N_of_ascii a)); cbn; [apply IH|reflexivity|reflexivity].
Qed.
Lemma text_le_not_lt x y : text_le x y <-> String.ltb y x = false.
Proof.
  unfold text_le, String.leb, String.ltb. rewrite (compare_antisym y x).
  destruct (String.compare x y); cbn; intuition discriminate.
Qed.
Lemma compare_trans_le x : forall y z, String.compare x y <> Gt -> String.compare y z <> Gt -> String.compare x z <> Gt.
Proof.
  induction x as [|a x IH]; intros y z; destruct y as [|b y], z as [|c z]; cbn [String.compare]; try congruence.
  unfold Ascii.compare.
  destruct (N.compare_spec (N_of_ascii a) (N_of_ascii b)) as [E|E|E]; try congruence;
  destruct (N.compare_spec (N_of_ascii b) (N_of_ascii c)) as [E'|E'|E']; try congruence; intros H1 H2;
  destruct (N.compare_spec (N_of_ascii a) (N_of_ascii c)) as [E2|E2|E2]; try lia; try congruence.
  apply (IH y z); assumption.
Qed.
Lemma text_le_trans x y z : text_le x y -> text_le y z -> text_le x z.
Proof.
  unfold text_le, String.leb. intros H1 H2.
  pose proof (compare_trans_le x y z) as T.
  destruct (String.compare x y); try discriminate; destruct (String.compare y z); try discriminate;
    destruct (String.compare x z); try reflexivity; exfalso; apply T; congruence.
Qed.

Lemma entry_le_not_lt x y : entry_lt y x = false <-> entry_le x y.
Proof.
  destruct x as [a n], y as [a' n']. unfold entry_lt, entry_le. cbn [fst snd].
  rewrite text_le_not_lt, <- string_lt_ltb. destruct (Z.eqb_spec a' a) as [->|Hne]; cbn [negb].
  - split; [right; auto|]. intros [H|[_ H]]; [lia|exact H].
  - split; [lia|]. intros [H|[H _]]; lia.
Qed.
Lemma entry_lt_le x y : entry_lt x y = true -> entry_le x y.
Proof.
  destruct x as [a n], y as [a' n']. unfold entry_lt, entry_le. cbn [fst snd].
  destruct (Z.eqb_spec a a') as [->|Hne]; cbn [negb].
  - rewrite string_lt_ltb. intros H. right. split; [reflexivity|]. unfold text_le, String.leb. unfold String.ltb in H.
    destruct (String.compare n n'); congruence.
  - intros H. left. lia.
Qed.
Lemma entry_le_trans x y z : entry_le x y -> entry_le y z -> entry_le x z.
Proof.
  unfold entry_le. intros [H1|[H1 T1]] [H2|[H2 T2]]; try (left; lia). right. split; [lia|]. apply (text_le_trans _ _ _ T1 T2).
Qed.

Lemma sort_insert_perm x l : Permutation (sort_insert x l) (x :: l).
Proof.
  induction l as [|y l IH]; [reflexivity|]. cbn [sort_insert]. destruct (entry_lt y x); [|reflexivity].
  rewrite IH. apply perm_swap.
Qed.
Lemma sort_perm l : Permutation (sort_entries l) l.
Proof. induction l as [|x l IH]; [reflexivity|]. cbn [sort_entries fold_right]. rewrite sort_insert_perm. constructor. exact IH. Qed.
Lemma sort_insert_sorted x l : StronglySorted entry_le l -> StronglySorted entry_le (sort_insert x l).
Proof.
  induction 1 as [|y l Hs IH Hf]; cbn [sort_insert]; [repeat constructor|].
  destruct (entry_lt y x) eqn:E.
  - constructor; [exact IH|]. rewrite Forall_forall in *. intros z Hz.
    apply (Permutation_in _ (sort_insert_perm x l)) in Hz. destruct Hz as [<-|Hz]; [apply entry_lt_le; exact E|apply Hf; exact Hz].
  - apply entry_le_not_lt in E. constructor; [constructor; assumption|]. constructor; [exact E|].
    eapply Forall_impl; [|exact Hf]. intros z Hz. apply (entry_le_trans _ y); assumption.
Qed.
Lemma sort_sorted l : StronglySorted entry_le (sort_entries l).
Proof. induction l as [|x l IH]; [constructor|]. cbn [sort_entries fold_right]. apply sort_insert_sorted. exact IH. Qed.

(* ---- the whole file ---- *)

Lemma functions_nonneg ops : Forall (fun f => 0 <= snd f) (functions ops).
Proof.
  induction ops as [|o ops IH]; [constructor|]. destruct o; try exact IH. cbn [functions]. constructor; [|exact IH].
  cbn [snd]. destruct (close ops); [|lia]. apply Z.mod_pos_bound. reflexivity.
Qed.
Lemma size_at_first fs a : NoDup (map fst fs) -> function_size fs a = size_at fs a.
Proof.
  unfold function_size, size_at. induction fs as [|[b z] fs IH]; [reflexivity|]. cbn [map fst find filter].
  intros H. apply NoDup_cons_iff in H. destruct H as [Hn Hd]. destruct (Z.eqb_spec b a) as [->|Hne]; [|apply IH; exact Hd].
  assert (E : filter (fun f => fst f =? a) fs = []).
  { clear - Hn. induction fs as [|[c w] fs IH]; [reflexivity|]. cbn [map fst In filter] in *.
    destruct (Z.eqb_spec c a) as [->|]; [exfalso; apply Hn; left; reflexivity|]. apply IH. intros Q. apply Hn. right. exact Q. }
  rewrite E. reflexivity.
Qed.
Lemma size_at_nonneg fs a : Forall (fun f => 0 <= snd f) fs -> 0 <= size_at fs a.
Proof.
  intros H. unfold size_at. destruct (filter _ fs) as [|[b z] [|? ?]] eqn:E; try lia.
  assert (Hin : In (b, z) fs) by (apply (filter_In (fun f => fst f =? a)); rewrite E; left; reflexivity).
  rewrite Forall_forall in H. apply (H _ Hin).
Qed.

Lemma written_all hex8 hex4 lower version ops : module_free ops -> NoDup (map fst (functions ops)) ->
  exists s labels data,
    sym_run sym_new ops = ROk s /\
    NoDup labels /\ (forall a n, In (a, n) labels <-> label_of None a n (rev ops)) /\
    NoDup data /\ (forall d, In d data <-> data_of None d (rev ops)) /\
    Permutation (written_entries hex8 hex4 lower version s)
      (map (label_line hex8 lower version (functions ops)) labels ++ map (data_line hex4) data).
Proof.
  intros MF ND. destruct (functions_new ops MF) as (s & E & m & ms & Hm & Hf).
  pose proof (run_new ops s E) as I. pose proof (module_free_one ops MF _ _ E) as L. rewrite Hm in L. destruct ms; [|discriminate].
  destruct (i_zero _ _ I) as (m0 & ms0 & Hz & Hz0). rewrite Hm in Hz. injection Hz as <- <-.
  pose proof (i_modules _ _ I m ltac:(rewrite Hm; left; reflexivity)) as [A B C D]. rewrite Hz0 in C, D.
  exists s, (m_symbols m), (m_data m). split; [exact E|]. split; [exact A|]. split; [exact C|].
  split; [apply sorted_nodup; exact B|]. split; [exact D|].
  unfold written_entries. rewrite sort_perm, Hm. cbn [flat_map]. rewrite app_nil_r.
  apply Permutation_app.
  - rewrite (map_ext _ (label_line hex8 lower version (functions ops))); [reflexivity|].
    intros [a n]. unfold symbol_entry, label_line. cbn [fst snd]. rewrite Hf, (size_at_first _ a ND).
    pose proof (size_at_nonneg _ a (functions_nonneg ops)) as P.
    destruct (Z.eqb_spec version 1) as [->|Hv].
    + cbn. rewrite andb_false_r. reflexivity.
    + replace (version >=? 2) with (2 <=? version) by lia.
      replace (negb (size_at (functions ops) a =? 0)) with (0 <? size_at (functions ops) a) by lia.
      rewrite andb_comm. reflexivity.
  - rewrite (map_ext _ (data_line hex4)); [reflexivity|]. intros [[a n] t]. destruct t; reflexivity.
Qed.

Lemma modules_exact ops s : sym_run sym_new ops = ROk s ->
  NoDup (map m_file (s_modules s)) /\
  (forall m, In m (s_modules s) -> NoDup (m_symbols m) /\ NoDup (m_data m)) /\
  (forall f a n, label_of f a n (rev ops) <-> exists m, In m (s_modules s) /\ m_file m = f /\ In (a, n) (m_symbols m)) /\
  (forall f d, data_of f d (rev ops) <-> exists m, In m (s_modules s) /\ m_file m = f /\ In d (m_data m)).
Proof.
  intros E. pose proof (run_new _ _ E) as I. destruct I as [En Fi Ze Cu Mo La Da].
  split; [exact Fi|]. split; [|split].
  - intros m Hin. destruct (Mo m Hin) as [A B C D]. split; [exact A|apply sorted_nodup; exact B].
  - intros f a n. split.
    + intros H. pose proof (La _ _ _ H) as Hin. apply in_map_iff in Hin. destruct Hin as (m & Hf & Hin).
      exists m. split; [exact Hin|split; [exact Hf|]]. apply (mi_label _ _ (Mo m Hin)). rewrite Hf. exact H.
    + intros (m & Hin & Hf & H). apply (mi_label _ _ (Mo m Hin)) in H. rewrite Hf in H. exact H.
  - intros f d. split.
    + intros H. pose proof (Da _ _ H) as Hin. apply in_map_iff in Hin. destruct Hin as (m & Hf & Hin).
      exists m. split; [exact Hin|split; [exact Hf|]]. apply (mi_data _ _ (Mo m Hin)). rewrite Hf. exact H.
    + intros (m & Hin & Hf & H). apply (mi_data _ _ (Mo m Hin)) in H. rewrite Hf in H. exact H.
Qed.

Definition one_module : list sym_op :=
  [SLabel 0x100 "main"; SStart 0x100; SData 0x100 4 Data32; SLabel 0x100 "main"; SEnabled false; SLabel 0x104 "hidden";
   SEnabled true; SStart 0x120; SLabel 0x120 "next"; SEnd 0x130; SLabel 0x100 "alias"].
Definition two_modules : list sym_op := [SLabel 0x100 "main"; SStartModule 1; SLabel 0x100 "main"; SEndModule 1].
Definition function_over_module : list sym_op := [SStart 0x100; SStartModule 1; SLabel 0x200 "x"; SEnd 0x110].
Definition same_start : list sym_op := [SLabel 0x100 "f"; SStart 0x100; SStart 0x100; SEnd 0x120].
