(** Blocks placed in a pass are inside their regions and do not overlap. *)

Require Import ZArith List Bool Lia ZifyBool.
From Verif Require Import AllocModel AllocSpec.
Import ListNotations.
Local Open Scope Z_scope.

Lemma akey_eqb_spec a b : akey_eqb a b = true <-> a = b.
Proof.
  destruct a as [a1 a2], b as [b1 b2]. unfold akey_eqb. cbn. rewrite andb_true_iff, !Z.eqb_eq. split; [intros [-> ->]; reflexivity|].
  intros E. injection E as -> ->. auto.
Qed.
Lemma akey_eqb_refl a : akey_eqb a a = true.
Proof. apply akey_eqb_spec. reflexivity. Qed.
Lemma akey_eqb_ne a b : a <> b -> akey_eqb a b = false.
Proof. intros H. destruct (akey_eqb a b) eqn:E; [|reflexivity]. apply akey_eqb_spec in E. contradiction. Qed.
Lemma akey_dec (a b : akey) : {a = b} + {a <> b}.
Proof. destruct (akey_eqb a b) eqn:E; [left; apply akey_eqb_spec; exact E|right; intros ->; rewrite akey_eqb_refl in E; discriminate]. Qed.
Lemma akey_ltb_trans a b c : akey_ltb a b = true -> akey_ltb b c = true -> akey_ltb a c = true.
Proof. unfold akey_ltb. lia. Qed.
Lemma akey_ltb_irrefl a : akey_ltb a a = false.
Proof. unfold akey_ltb. lia. Qed.
Lemma akey_total a b : akey_eqb a b = false -> akey_ltb a b = false -> akey_ltb b a = true.
Proof. unfold akey_eqb, akey_ltb. lia. Qed.
Lemma akey_ltb_ne a b : akey_ltb a b = true -> a <> b.
Proof. intros H ->. rewrite akey_ltb_irrefl in H. discriminate. Qed.

Lemma map_find_set {A} (l : list (akey * A)) k v k' : map_find (map_set l k v) k' = if akey_eqb k k' then Some v else map_find l k'.
Proof.
  induction l as [|[k0 v0] l IH]; cbn [map_set map_find]; [reflexivity|].
  destruct (akey_eqb k0 k) eqn:E.
  - apply akey_eqb_spec in E. subst k0. cbn [map_find]. destruct (akey_eqb k k'); reflexivity.
  - destruct (akey_ltb k k0); cbn [map_find]; [reflexivity|]. rewrite IH.
    destruct (akey_eqb k0 k') eqn:E1; [|reflexivity]. apply akey_eqb_spec in E1. subst k0.
    destruct (akey_eqb k k') eqn:E2; [|reflexivity]. apply akey_eqb_spec in E2. subst k. rewrite akey_eqb_refl in E. discriminate.
Qed.
Lemma map_find_erase {A} (l : list (akey * A)) k k' : map_find (map_erase l k) k' = if akey_eqb k k' then None else map_find l k'.
Proof.
  unfold map_erase. induction l as [|[k0 v0] l IH]; cbn [filter map_find fst]; [destruct (akey_eqb k k'); reflexivity|].
  destruct (akey_eqb k0 k) eqn:E; cbn [negb].
  - rewrite IH. apply akey_eqb_spec in E. subst k0. destruct (akey_eqb k k'); reflexivity.
  - cbn [map_find]. rewrite IH. destruct (akey_eqb k0 k') eqn:E1; [|reflexivity]. apply akey_eqb_spec in E1. subst k0.
    destruct (akey_eqb k k') eqn:E2; [|reflexivity]. apply akey_eqb_spec in E2. subst k. rewrite akey_eqb_refl in E. discriminate.
Qed.
Lemma in_map_set (l : list (akey * usage)) k v k' u : In (k', u) (map_set l k v) -> (k' = k /\ u = v) \/ In (k', u) l.
Proof.
  induction l as [|[k0 v0] l IH]; cbn [map_set]; intros H; [destruct H as [E|[]]; injection E as <- <-; auto|].
  destruct (akey_eqb k0 k) eqn:E.
  - destruct H as [E'|H]; [injection E' as <- <-; auto|right; right; exact H].
  - destruct (akey_ltb k k0).
    + destruct H as [E'|H]; [injection E' as <- <-; auto|right; exact H].
    + destruct H as [E'|H]; [right; left; exact E'|]. destruct (IH H); [auto|right; right; assumption].
Qed.
Lemma ordered_set l k v : ordered l -> ordered (map_set l k v).
Proof.
  induction l as [|[k0 v0] l IH]; intros O; cbn [map_set]; [split; [intros ? ? []|exact Logic.I]|].
  destruct O as [O1 O2]. destruct (akey_eqb k0 k) eqn:E.
  - apply akey_eqb_spec in E. subst k0. split; assumption.
  - destruct (akey_ltb k k0) eqn:L.
    + split; [|split; assumption]. intros k' u [E'|H]; [injection E' as <- <-; exact L|]. apply (akey_ltb_trans _ k0); [exact L|apply (O1 _ _ H)].
    + split; [|apply IH; exact O2]. intros k' u H. apply in_map_set in H. destruct H as [[-> ->]|H]; [|apply (O1 _ _ H)].
      apply akey_total; [|exact L]. destruct (akey_eqb k k0) eqn:E2; [|reflexivity]. apply akey_eqb_spec in E2. subst k0. rewrite akey_eqb_refl in E. discriminate.
Qed.
Lemma ordered_filter p l : ordered l -> ordered (filter p l).
Proof.
  induction l as [|[k0 v0] l IH]; intros O; [exact Logic.I|]. destruct O as [O1 O2]. cbn [filter]. destruct (p _); [|apply IH; exact O2].
  split; [|apply IH; exact O2]. intros k' u H. apply filter_In in H. apply (O1 _ _ (proj1 H)).
Qed.
Lemma ordered_find l k u : ordered l -> In (k, u) l <-> map_find l k = Some u.
Proof.
  induction l as [|[k0 v0] l IH]; intros O; cbn [map_find]; [split; [intros []|discriminate]|]. destruct O as [O1 O2].
  destruct (akey_eqb k0 k) eqn:E.
  - apply akey_eqb_spec in E. subst k0. split; [|intros E; injection E as <-; left; reflexivity].
    intros [E|H]; [injection E as <-; reflexivity|]. apply O1 in H. apply akey_ltb_ne in H. contradiction.
  - rewrite <- IH by exact O2. split; [|intros H; right; exact H]. intros [E'|H]; [|exact H]. injection E' as <- <-. rewrite akey_eqb_refl in E. discriminate.
Qed.

Lemma reached_ordered s : alloc_reached s -> ordered (a_areas s).
Proof.
  induction 1; unfold alloc_clear, set_area, set_pool, forget_area, forget_pool, sub_area_touch, clear_sub_areas, allocate, with_subs, with_areas, with_pools; cbn [a_areas]; try assumption.
  - exact Logic.I.
  - exact Logic.I.
  - apply ordered_set. assumption.
  - destruct (map_find (a_areas s) (file, pos)); [destruct (_ =? _)|]; cbn [a_areas]; try assumption. apply ordered_filter. assumption.
  - destruct (map_find (a_pools s) (file, pos)); [destruct (_ =? _)|]; cbn [a_areas]; assumption.
  - destruct (map_find (a_areas s) k); [assumption|]. apply ordered_set. assumption.
  - destruct (try_hosts s file position minr maxr size (a_areas s)) as [[s' p]|] eqn:T; [|exact IHalloc_reached]. cbn [fst].
    assert (E : forall l, try_hosts s file position minr maxr size l = Some (s', p) -> a_areas s' = a_areas s).
    { induction l as [|[k u] l IH]; cbn [try_hosts]; [discriminate|]. destruct (try_host s file position minr maxr size k u) as [[s1 p1]|] eqn:E; [|exact IH].
      intros E1. injection E1 as -> ->. unfold try_host in E. revert E. cbv zeta.
      repeat (match goal with |- (if ?b then _ else _) = _ -> _ => destruct b end; try discriminate). intros E1. injection E1 as <- <-. reflexivity. }
    rewrite (E _ T). exact IHalloc_reached.
Qed.

(* ---- the extent of the sub areas ---- *)

Lemma max_extent_fold k subs m : 
  m <= fold_left (fun m e => if akey_eqb (fst e) k then Z.max (fst (snd e) + snd (snd e)) m else m) subs m /\
  (forall o z, In (k, (o, z)) subs -> o + z <= fold_left (fun m e => if akey_eqb (fst e) k then Z.max (fst (snd e) + snd (snd e)) m else m) subs m).
Proof.
  revert m. induction subs as [|[k0 [o z]] subs IH]; intros m; cbn [fold_left fst snd]; [split; [lia|intros ? ? []]|].
  destruct (IH (if akey_eqb k0 k then Z.max (o + z) m else m)) as [H1 H2]. split.
  - destruct (akey_eqb k0 k); lia.
  - intros o' z' [E|H]; [|apply H2; exact H]. injection E as -> -> ->. rewrite akey_eqb_refl in *. lia.
Qed.
Lemma max_extent_bound subs k : 0 <= max_extent subs k /\ (forall o z, In (k, (o, z)) subs -> o + z <= max_extent subs k).
Proof. apply max_extent_fold. Qed.
Lemma max_extent_least k subs m b : m <= b -> (forall o z, In (k, (o, z)) subs -> o + z <= b) ->
  fold_left (fun m e => if akey_eqb (fst e) k then Z.max (fst (snd e) + snd (snd e)) m else m) subs m <= b.
Proof.
  revert m. induction subs as [|[k0 [o z]] subs IH]; intros m Hm H; cbn [fold_left fst snd]; [exact Hm|].
  apply IH; [|intros; apply H; right; assumption]. destruct (akey_eqb k0 k) eqn:E; [|exact Hm]. apply akey_eqb_spec in E. subst k0.
  specialize (H o z (or_introl eq_refl)). lia.
Qed.
Lemma actual_usage s k u : map_find (a_areas s) k = Some u -> u_usage u + sub_area_usage s k = Z.max (u_usage u) (max_extent (a_subs s) k).
Proof. intros E. unfold sub_area_usage, area_usage. rewrite E. destruct (Z.leb_spec (max_extent (a_subs s) k) (u_usage u)); lia. Qed.

(* ---- one allocation ---- *)

Lemma try_host_some s file position minr maxr size k u s' p : try_host s file position minr maxr size k u = Some (s', p) ->
  fst k = file /\ u_shared u = true /\
  let actual := u_usage u + sub_area_usage s k in
  (minr <> -1 -> minr <= snd k + actual) /\ (maxr <> -1 -> snd k + actual <= maxr) /\
  snd k + actual <= p /\ p + size <= snd k + u_space u /\
  (p = snd k + actual \/ (a_keep s = true /\ p = position)) /\
  a_areas s' = a_areas s /\ a_pools s' = a_pools s /\ a_subs s' = (k, (actual, p + size - snd k - actual)) :: a_subs s /\ a_keep s' = a_keep s.
Proof.
  unfold try_host. intros E.
  destruct (Z.eqb_spec (fst k) file) as [Hf|]; cbn [negb orb] in E; [|discriminate].
  destruct (u_shared u); cbn [negb orb] in E; [|discriminate].
  destruct (_ && (_ + _ <? _)); [discriminate|]. destruct (_ && (_ <? snd k)); [discriminate|].
  set (actual := u_usage u + sub_area_usage s k) in *.
  destruct (negb (minr =? -1) && (snd k + actual <? minr)) eqn:E1; [discriminate|].
  destruct (negb (maxr =? -1) && (maxr <? snd k + actual)) eqn:E2; [discriminate|].
  set (keep := a_keep s && _ && _ && _ && _) in E.
  destruct (Z.leb_spec (actual + (if keep then size + (position - snd k - actual) else size)) (u_space u)) as [Hs|]; [|discriminate].
  injection E as <- <-. cbn [a_areas a_pools a_subs a_keep]. cbv zeta.
  split; [exact Hf|]. split; [reflexivity|]. split; [lia|]. split; [lia|].
  destruct keep eqn:K; unfold keep in K.
  - repeat split; try lia. f_equal. f_equal. f_equal. lia.
  - repeat split; try lia. f_equal. f_equal. f_equal. lia.
Qed.
Lemma try_host_none s file position minr maxr size k u : try_host s file position minr maxr size k u = None ->
  fst k = file -> u_shared u = true -> 0 <= u_usage u + sub_area_usage s k -> 0 <= size ->
  (minr <> -1 /\ snd k + u_usage u + sub_area_usage s k < minr) \/ (maxr <> -1 /\ maxr < snd k + u_usage u + sub_area_usage s k) \/
  u_space u < u_usage u + sub_area_usage s k + size.
Proof.
  unfold try_host. intros E Hf Hs Hu Hz. rewrite Hf, Z.eqb_refl, Hs in E. cbn [negb orb] in E.
  set (actual := u_usage u + sub_area_usage s k) in *. rewrite <- !Z.add_assoc in *. fold actual.
  destruct (negb (minr =? -1) && (snd k + u_space u <? minr)) eqn:E0; [lia|].
  destruct (negb (maxr =? -1) && (maxr <? snd k)) eqn:E00; [lia|].
  destruct (negb (minr =? -1) && (snd k + actual <? minr)) eqn:E1; [lia|].
  destruct (negb (maxr =? -1) && (maxr <? snd k + actual)) eqn:E2; [lia|].
  set (keep := a_keep s && _ && _ && _ && _) in E.
  destruct (Z.leb_spec (actual + (if keep then size + (position - snd k - actual) else size)) (u_space u)) as [|H]; [discriminate|].
  right. right. destruct keep eqn:K; unfold keep in K; lia.
Qed.
Lemma try_hosts_some s file position minr maxr size l s' p : try_hosts s file position minr maxr size l = Some (s', p) ->
  exists k u, In (k, u) l /\ try_host s file position minr maxr size k u = Some (s', p).
Proof.
  induction l as [|[k u] l IH]; cbn [try_hosts]; [discriminate|]. destruct (try_host _ _ _ _ _ _ k u) as [r|] eqn:E; intros H.
  - injection H as ->. exists k, u. split; [left; reflexivity|exact E].
  - destruct (IH H) as (k' & u' & H1 & H2). exists k', u'. split; [right; exact H1|exact H2].
Qed.
Lemma try_hosts_none s file position minr maxr size l k u : try_hosts s file position minr maxr size l = None -> In (k, u) l ->
  try_host s file position minr maxr size k u = None.
Proof.
  induction l as [|[k0 u0] l IH]; cbn [try_hosts]; [intros _ []|]. destruct (try_host _ _ _ _ _ _ k0 u0) as [r|] eqn:E; [discriminate|].
  intros H [E'|H']; [injection E' as -> ->; exact E|apply IH; assumption].
Qed.

(* ---- the invariant of a pass ---- *)

Definition matches (areas : list (akey * usage)) (e : akey * (Z * Z)) (b : block) : Prop :=
  fst (fst e) = b_file b /\ 0 <= b_size b /\ 0 <= fst (snd e) /\
  snd (fst e) + fst (snd e) <= b_start b /\ b_start b + b_size b = snd (fst e) + fst (snd e) + snd (snd e) /\
  exists u, map_find areas (fst e) = Some u /\ u_shared u = true /\ u_usage u <= fst (snd e) /\ fst (snd e) + snd (snd e) <= u_space u.
Definition behind (subs : list (akey * (Z * Z))) : Prop :=
  ForallOrdPairs (fun newer older => fst newer = fst older -> fst (snd older) + snd (snd older) <= fst (snd newer)) subs.

Record pinv (s : alloc) (l : list block) : Prop := mkPinv {
  pi_ordered : ordered (a_areas s);
  pi_match : Forall2 (matches (a_areas s)) (a_subs s) l;
  pi_behind : behind (a_subs s) }.

Lemma Forall2_weaken {A B} (P Q : A -> B -> Prop) l m : Forall2 P l m -> (forall a b, In a l -> In b m -> P a b -> Q a b) -> Forall2 Q l m.
Proof.
  induction 1 as [|a b l m H F IH]; intros W; constructor; [apply W; [left; reflexivity|left; reflexivity|exact H]|].
  apply IH. intros. apply W; try right; assumption.
Qed.

Lemma pass_inv s l : pass s l -> pinv s l.
Proof.
  induction 1 as [s O|s l file pos space used fill shared P [O M B] H|s l file pos space P [O M B] H
                 |s l file position minr maxr size s' p P [O M B] Hs E|s l file position minr maxr size s' P [O M B] E].
  - split; [apply (reached_ordered s); exact O|constructor|constructor].
  - split; cbn [set_area with_areas a_areas a_subs]; [apply ordered_set; exact O| |exact B].
    apply (Forall2_weaken _ _ _ _ M). intros [[f q] [o z]] b _ Hb (M1 & M2 & M3 & M4 & M5 & u & U1 & U2 & U3 & U4). unfold matches. cbn [fst snd] in *.
    repeat (split; [assumption|]). rewrite map_find_set. destruct (akey_eqb (file, pos) (f, q)) eqn:K; [|exists u; auto].
    apply akey_eqb_spec in K. injection K as <- <-.
    destruct (H u b U1 Hb) as (<- & <- & <-); [congruence|lia|].
    eexists. split; [reflexivity|]. cbn. auto.
  - assert (No : forall e b, In b l -> In e (a_subs s) -> matches (a_areas s) e b -> fst e <> (file, pos)).
    { intros [[f q] [o z]] b Hb He (M1 & M2 & M3 & M4 & M5 & u & U1 & U2 & U3 & U4). cbn [fst snd] in *. intros K. injection K as -> ->.
      apply (H u b U1 Hb); [congruence|lia]. }
    assert (Ke : map_erase (a_subs s) (file, pos) = a_subs s).
    { unfold map_erase. revert M No. generalize (a_areas s). intros areas M. clear - M. induction M as [|e b sl l Hm F IH]; intros No; [reflexivity|].
      cbn [filter]. rewrite akey_eqb_ne by (apply (No e b); [left; reflexivity|left; reflexivity|exact Hm]). cbn [negb]. f_equal.
      apply IH. intros. apply (No e0 b0); try right; assumption. }
    assert (M' : forall areas, (forall k, k <> (file, pos) -> map_find areas k = map_find (a_areas s) k) -> Forall2 (matches areas) (a_subs s) l).
    { intros areas Ha. apply (Forall2_weaken _ _ _ _ M). intros e b He Hb Hm. pose proof (No e b Hb He Hm) as N.
      destruct Hm as (M1 & M2 & M3 & M4 & M5 & u & U1 & U2). repeat (split; [assumption|]). exists u. rewrite Ha by exact N. auto. }
    unfold forget_area. destruct (map_find (a_areas s) (file, pos)) as [u|] eqn:F; [destruct (u_space u =? space)|]; unfold with_subs, with_areas; cbn [a_areas a_subs]; rewrite Ke;
      split; cbn [a_areas a_subs]; try assumption; try (apply ordered_filter; exact O).
    apply M'. intros k Hk. rewrite map_find_erase, akey_eqb_ne by congruence. reflexivity.
  - unfold allocate in E. destruct (try_hosts _ _ _ _ _ _ _) as [[s1 p1]|] eqn:T; [|discriminate]. injection E as -> ->.
    apply try_hosts_some in T. destruct T as (k & u & Hin & T). apply try_host_some in T. cbv zeta in T.
    destruct T as (Hf & Hsh & _ & _ & T3 & T4 & _ & Ta & _ & Ts & _). rewrite (ordered_find _ _ _ O) in Hin.
    rewrite (actual_usage s k u Hin) in *. destruct (max_extent_bound (a_subs s) k) as [X1 X2].
    split; rewrite ?Ta, ?Ts; [exact O| |].
    + constructor; [|exact M]. unfold matches. cbn [fst snd b_file b_start b_size]. repeat (split; [try assumption; lia|]).
      exists u. repeat split; try assumption; lia.
    + constructor; [|exact B]. apply Forall_forall. intros [k' [o z]] Hi. cbn [fst snd]. intros <-. specialize (X2 _ _ Hi). lia.
  - unfold allocate in E. destruct (try_hosts _ _ _ _ _ _ _) as [[s1 p1]|]; [discriminate|]. injection E as <-. split; assumption.
Qed.

Lemma Forall2_in_r {A B} (R : A -> B -> Prop) l m b : Forall2 R l m -> In b m -> exists a, In a l /\ R a b.
Proof.
  induction 1 as [|x y l m H F IH]; intros Hi; [destruct Hi|]. destruct Hi as [<-|Hi]; [exists x; split; [left; reflexivity|exact H]|].
  destruct (IH Hi) as (a & Ha & Ra). exists a. split; [right; exact Ha|exact Ra].
Qed.

Lemma pass_housed s l b : pass s l -> In b l -> housed s b.
Proof.
  intros P Hb. destruct (pass_inv s l P) as [O M _]. destruct (Forall2_in_r _ _ _ _ M Hb) as ([[f q] [o z]] & Hi & M1 & M2 & M3 & M4 & M5 & u & U1 & U2 & U3 & U4).
  cbn [fst snd] in *. exists q, (u_space u), (u_usage u). split; [|lia]. exists (u_fill u). apply (ordered_find _ _ _ O). subst f. rewrite U1.
  destruct u as [a b' c d]. cbn in U2. subst d. reflexivity.
Qed.

Lemma pass_apart s l : pass s l -> regions_apart s -> ForallOrdPairs apart l.
Proof.
  intros P R. destruct (pass_inv s l P) as [O M B].
  assert (K : forall k u, map_find (a_areas s) k = Some u -> u_shared u = true -> region s (fst k) (snd k) (u_space u) (u_usage u)).
  { intros [f q] u E Hs. exists (u_fill u). apply (ordered_find _ _ _ O). cbn [fst snd]. rewrite E. destruct u as [a b c d]. cbn in Hs. subst d. reflexivity. }
  clear P. unfold behind in B. revert B. induction M as [|e b sl l Hm F IH]; intros B; [constructor|].
  inversion B as [|? ? B1 B2]; subst. constructor; [|apply IH; exact B2].
  apply Forall_forall. intros b' Hb'. destruct (Forall2_in_r _ _ _ _ F Hb') as (e' & Hi & Hm').
  rewrite Forall_forall in B1. specialize (B1 e' Hi).
  destruct Hm as (M1 & M2 & M3 & M4 & M5 & u & U1 & U2 & U3 & U4). destruct Hm' as (N1 & N2 & N3 & N4 & N5 & v & V1 & V2 & V3 & V4).
  unfold apart. destruct (Z.eq_dec (b_file b) (b_file b')) as [Ef|]; [right|left; assumption].
  pose proof (K _ _ U1 U2) as R1. pose proof (K _ _ V1 V2) as R2. rewrite M1 in R1. rewrite N1 in R2. rewrite <- Ef in R2.
  destruct (R _ _ _ _ _ _ _ R1 R2) as [(Q1 & Q2 & Q3)|Q]; [|lia].
  assert (Ek : fst e = fst e') by (destruct (fst e), (fst e'); cbn in *; congruence). specialize (B1 Ek). lia.
Qed.

(* ---- range of one allocation ---- *)

Lemma allocate_range s file position minr maxr size s' p : ordered (a_areas s) -> allocate s file position minr maxr size = (s', Some p) ->
  (minr <> -1 -> minr <= p) /\ (maxr <> -1 -> p <= maxr \/ (a_keep s = true /\ p = position)).
Proof.
  intros O E. unfold allocate in E. destruct (try_hosts _ _ _ _ _ _ _) as [[s1 p1]|] eqn:T; [|discriminate]. injection E as -> ->.
  apply try_hosts_some in T. destruct T as (k & u & Hin & T). apply try_host_some in T. cbv zeta in T.
  destruct T as (Hf & Hsh & T1 & T2 & T3 & T4 & T5 & _). split; [lia|]. intros Hx. specialize (T2 Hx). destruct T5 as [->|T5]; [left; lia|right; exact T5].
Qed.

(* ---- failing ---- *)

Lemma allocate_fails s l file position minr maxr size s' : pass s l -> 0 <= size -> allocate s file position minr maxr size = (s', None) ->
  forall pos space used, region s file pos space used -> 0 <= used ->
  let first := Z.max used (max_extent (a_subs s) (file, pos)) in
  (minr <> -1 /\ pos + first < minr) \/ (maxr <> -1 /\ maxr < pos + first) \/ space < first + size.
Proof.
  intros P Hs E pos space used (fill & Hr) Hu. destruct (pass_inv s l P) as [O _ _].
  unfold allocate in E. destruct (try_hosts _ _ _ _ _ _ _) as [[s1 p1]|] eqn:T; [discriminate|].
  pose proof (try_hosts_none _ _ _ _ _ _ _ _ _ T Hr) as T1. cbv zeta.
  pose proof Hr as Hf. rewrite (ordered_find _ _ _ O) in Hf. pose proof (actual_usage _ _ _ Hf) as A. cbn [u_usage] in A.
  destruct (max_extent_bound (a_subs s) (file, pos)) as [X1 _].
  apply try_host_none in T1; cbn [u_usage u_space u_shared fst snd] in *; try reflexivity; try lia.
Qed.

(* ---- overlap warnings ---- *)

Definition content_end (s : alloc) (e : akey * usage) : Z := snd (fst e) + u_usage (snd e) + sub_area_usage s (fst e).

Lemma warnings_grow s l : forall w, (w_warnings w <= w_warnings (fold_left (sweep_step s) l w))%nat.
Proof.
  induction l as [|e l IH]; intros w; cbn [fold_left]; [lia|]. specialize (IH (sweep_step s w e)).
  assert (w_warnings w <= w_warnings (sweep_step s w e))%nat; [|lia]. unfold sweep_step. 
  repeat match goal with |- context[if ?b then _ else _] => destruct b end; cbn; lia.
Qed.

(** What is known after the entries [seen]: the contents of the current file end before the
    current end of contents, which is inside the current area. *)
Record swept (s : alloc) (seen : list (akey * usage)) (w : sweep) : Prop := mkSwept {
  sw_ends : forall e, In e seen -> fst (fst e) = w_file w -> content_end s e <= w_pos w + w_usage w;
  sw_inside : seen <> [] -> w_pos w + w_usage w <= w_end w;
  sw_file : forall e, In e seen -> fst (fst e) <= w_file w }.
Definition after (seen : list (akey * usage)) (w : sweep) (k : akey) : Prop :=
  seen <> [] -> w_file w < fst k \/ (w_file w = fst k /\ w_pos w < snd k).
Definition sep (s : alloc) (a b : akey * usage) : Prop := fst (fst a) = fst (fst b) -> content_end s a <= snd (fst b).

Lemma sweep_one s seen w e : swept s seen w -> after seen w (fst e) -> (seen = [] -> w = mkSweep (-1) (-1) (-1) 0 false 0) ->
  0 <= u_usage (snd e) + sub_area_usage s (fst e) <= u_space (snd e) ->
  w_warnings (sweep_step s w e) = w_warnings w ->
  (forall x, In x seen -> sep s x e) /\ swept s (e :: seen) (sweep_step s w e) /\
  w_file (sweep_step s w e) = fst (fst e) /\ w_pos (sweep_step s w e) <= snd (fst e).
Proof.
  intros [E I F] A N U W. destruct e as [[f p] u]. unfold content_end, sep, after in *. cbn [fst snd] in *.
  unfold sweep_step in *. cbn [fst snd] in *. 
  destruct ((f =? w_file w) && (w_pos w <? p) && (p <? w_end w)) eqn:C.
  - destruct (p <? w_pos w + w_usage w) eqn:C1.
    { exfalso. destruct (p + u_space u <? w_end w); cbn [w_warnings] in W; lia. }
    destruct (u_fill u && w_fill w).
    { exfalso. destruct (p + u_space u <? w_end w); cbn [w_warnings] in W; lia. }
    assert (Sn : forall x, In x seen -> fst (fst x) = f -> snd (fst x) + u_usage (snd x) + sub_area_usage s (fst x) <= p).
    { intros x Hx Hf. specialize (E x Hx ltac:(lia)). unfold content_end in E. lia. }
    split; [exact Sn|].
    destruct (p + u_space u <? w_end w) eqn:C2; cbn [w_file w_pos w_usage w_end].
    + split; [|lia]. split; cbn [w_file w_pos w_usage w_end].
      * intros x [<-|Hx] Hf; unfold content_end; cbn [fst snd]; [lia|]. specialize (Sn x Hx ltac:(lia)). lia.
      * intros _. lia.
      * intros x [<-|Hx]; cbn [fst]; [lia|apply F; exact Hx].
    + split; [|lia]. split; cbn [w_file w_pos w_usage w_end].
      * intros x [<-|Hx] Hf; unfold content_end; cbn [fst snd]; [lia|]. specialize (Sn x Hx ltac:(lia)). lia.
      * intros _. lia.
      * intros x [<-|Hx]; cbn [fst]; [lia|]. specialize (F x Hx). lia.
  - assert (Sn : forall x, In x seen -> fst (fst x) = f -> snd (fst x) + u_usage (snd x) + sub_area_usage s (fst x) <= p).
    { intros x Hx Hf. assert (Hn : seen <> []) by (intros ->; destruct Hx). specialize (A Hn). specialize (I Hn). specialize (F x Hx).
      specialize (E x Hx ltac:(lia)). unfold content_end in E. lia. }
    split; [exact Sn|]. split; [|cbn; lia]. split; cbn [w_file w_pos w_usage w_end].
    + intros x [<-|Hx] Hf; unfold content_end; cbn [fst snd]; [lia|]. specialize (Sn x Hx ltac:(lia)). lia.
    + intros _. lia.
    + intros x [<-|Hx]; cbn [fst]; [lia|]. assert (Hn : seen <> []) by (intros ->; destruct Hx). specialize (A Hn). specialize (F x Hx). lia.
Qed.

Lemma sweep_all s : forall l seen w, swept s seen w -> (forall k u, In (k, u) l -> after seen w k) ->
  (seen = [] -> w = mkSweep (-1) (-1) (-1) 0 false 0) -> ordered l ->
  (forall k u, In (k, u) l -> 0 <= u_usage u + sub_area_usage s k <= u_space u) ->
  w_warnings (fold_left (sweep_step s) l w) = w_warnings w ->
  ForallOrdPairs (sep s) l.
Proof.
  induction l as [|e l IH]; intros seen w Sw A N O U W; [constructor|].
  cbn [fold_left] in W. pose proof (warnings_grow s l (sweep_step s w e)) as G1.
  assert (G2 : (w_warnings w <= w_warnings (sweep_step s w e))%nat) by apply (warnings_grow s [e] w).
  destruct e as [k u].
  destruct (sweep_one s seen w (k, u) Sw (A k u (or_introl eq_refl)) N (U k u (or_introl eq_refl)) ltac:(lia)) as (S1 & S2 & S3 & S4).
  destruct O as [O1 O2]. cbn [fst snd] in *.
  assert (A' : forall k' u', In (k', u') l -> after ((k, u) :: seen) (sweep_step s w (k, u)) k').
  { intros k' u' Hi _. specialize (O1 _ _ Hi). rewrite S3. unfold akey_ltb in O1. lia. }
  constructor; [|apply (IH ((k, u) :: seen) (sweep_step s w (k, u))); try assumption; try discriminate; [intros; apply U; right; assumption|lia]].
  (* the entry against the later ones: run the rest of the sweep *)
  clear IH S1. remember (sweep_step s w (k, u)) as w1 eqn:Ew. remember ((k, u) :: seen) as seen1 eqn:Es.
  assert (Hin : In (k, u) seen1) by (subst; left; reflexivity). assert (Hne : seen1 <> []) by (subst; discriminate).
  assert (W1 : w_warnings (fold_left (sweep_step s) l w1) = w_warnings w1) by lia.
  assert (U1 : forall k u, In (k, u) l -> 0 <= u_usage u + sub_area_usage s k <= u_space u) by (intros; apply U; right; assumption).
  clear - S2 A' O2 U1 W1 Hin Hne. revert seen1 w1 S2 A' W1 Hin Hne.
  induction l as [|[k' u'] l IH]; intros seen1 w1 S2 A' W1 Hin Hne; [constructor|].
  cbn [fold_left] in W1. pose proof (warnings_grow s l (sweep_step s w1 (k', u'))) as G1.
  assert (G2 : (w_warnings w1 <= w_warnings (sweep_step s w1 (k', u')))%nat) by apply (warnings_grow s [(k', u')] w1).
  destruct (sweep_one s seen1 w1 (k', u') S2 (A' k' u' (or_introl eq_refl)) ltac:(intros; contradiction) (U1 k' u' (or_introl eq_refl)) ltac:(lia)) as (T1 & T2 & T3 & T4).
  destruct O2 as [O1 O2]. cbn [fst snd] in *.
  constructor; [apply T1; exact Hin|]. apply (IH O2 ltac:(intros; apply U1; right; assumption) ((k', u') :: seen1) (sweep_step s w1 (k', u'))); try assumption; try lia; try discriminate; [|right; exact Hin].
  intros k2 u2 Hi _. specialize (O1 _ _ Hi). rewrite T3. unfold akey_ltb in O1. lia.
Qed.

Lemma overlap_reported s : ordered (a_areas s) ->
  (forall k u, In (k, u) (a_areas s) -> 0 <= u_usage u + sub_area_usage s k <= u_space u) ->
  forall k1 u1 k2 u2 a, In (k1, u1) (a_areas s) -> In (k2, u2) (a_areas s) -> k1 <> k2 -> fst k1 = fst k2 ->
  filled s k1 u1 a -> filled s k2 u2 a -> (0 < validate_overlap s)%nat.
Proof.
  intros O U k1 u1 k2 u2 a H1 H2 Hk Hf F1 F2. destruct (validate_overlap s) eqn:W; [|lia]. exfalso.
  unfold validate_overlap in W.
  assert (P : ForallOrdPairs (sep s) (a_areas s)).
  { apply (sweep_all s (a_areas s) [] (mkSweep (-1) (-1) (-1) 0 false 0)); try assumption; try reflexivity.
    - split; [intros ? []|intros C; contradiction|intros ? []].
    - intros k u _ C. contradiction. }
  pose proof (ForallOrdPairs_In P _ _ H1 H2) as Q. unfold sep, content_end, filled in *. cbn [fst snd] in *.
  destruct Q as [Q|[Q|Q]].
  - injection Q as -> _. contradiction.
  - specialize (Q Hf). lia.
  - specialize (Q (eq_sym Hf)). lia.
Qed.
