(** Supporting proofs: what single commands do, read off [place]. *)

Require Import ZArith List Bool Lia ZifyBool.
From Verif Require Import Ints IntsLemmas Res FileModel BytesSpec FileSpec FileProofs AllocModel AsmModel AsmSpec AsmProofs AsmSimProofs AsmRunProofs AsmTotalProofs.
Import ListNotations.
Local Open Scope Z_scope.

Lemma emits_pos files l p p' f h v : emits files l p p' -> p_pos p = Some (mkPos f h v) -> p_pos p' = Some (mkPos f h (v + Z.of_nat (List.length l))) /\ 0 <= v - h.
Proof. intros E Hp. destruct E as [p f' g h' v' d' new Hp' _ R _ _ _]. rewrite Hp in Hp'. injection Hp' as <- <- <-. auto. Qed.
Lemma emits_open files l p p' : emits files l p p' -> exists f h v, p_pos p = Some (mkPos f h v).
Proof. intros E. destruct E. eauto. Qed.
Lemma section_pos p : p_pos (new_section p) = p_pos p.
Proof. unfold new_section. destruct (p_arch p); reflexivity. Qed.
Lemma goes_pos a p p' f h v : goes a p p' -> p_pos p = Some (mkPos f h v) -> p_pos p' = Some (mkPos f h a) /\ 0 <= a - h.
Proof. intros G Hp. destruct G as [p f' h' v' Hp' R]. rewrite Hp in Hp'. injection Hp' as <- <- <-. auto. Qed.

Lemma sees_virtual L p f h v : p_pos p = Some (mkPos f h v) -> v_virtual (sees L p) = v /\ v_physical (sees L p) = v - h.
Proof. unfold sees. intros ->. auto. Qed.

Section Commands.
  Variable files : list gfile.
  Variable L : labels.
  Variable P : nat -> Z.

  Lemma align_result m e fill p p' : place files L P (CAlign m e fill) p p' ->
    exists n b f h v v', eval e (sees L p) = Some n /\ given L fill p 0 b /\ p_pos p = Some (mkPos f h v) /\ p_pos p' = Some (mkPos f h v') /\
      emits files (repeat (u8 b) (Z.to_nat (v' - v))) (new_section p) p' /\ v <= v' /\
      match m with
      | AlignVirtual => 0 <= v -> least_multiple n v v'
      | AlignPhysical => least_multiple n (v - h) (v' - h)
      | Fill => v' = v + n
      end.
  Proof.
    intros H. inversion H as [| | | | | | | | | m' e' n fill' b size q q' Ha En Es Ep Hz Gb Em| | | | | | | | | | | | | | | | |]; subst m' e' fill' q q'.
    destruct (emits_open _ _ _ _ Em) as (f & h & v & Hp). pose proof Hp as Hp0. rewrite section_pos in Hp0. destruct (emits_pos _ _ _ _ _ _ _ Em Hp) as [Hp' Hr]. rewrite repeat_length, Z2Nat.id in Hp' by exact Hz.
    destruct (sees_virtual L _ _ _ _ Hp0) as [Sv Sp]. rewrite Sv, Sp in Es.
    exists n, b, f, h, v, (v + size). split; [exact En|]. split; [exact Gb|]. split; [exact Hp0|]. split; [exact Hp'|]. split; [replace (v + size - v) with size by lia; exact Em|].
    split; [lia|]. destruct m.
    - intros Hv. destruct (Ep ltac:(discriminate)) as (k & Hk & ->). subst size. eapply gap_least; [exact Hv|exact Hk|reflexivity].
    - destruct (Ep ltac:(discriminate)) as (k & Hk & ->). replace (v + size - h) with (v - h + size) by lia. subst size. eapply gap_least; [exact Hr|exact Hk|reflexivity].
    - lia.
  Qed.

  Lemma skip_result e p p' : place files L P (CSkip e) p p' ->
    exists n f h v, eval e (sees L p) = Some n /\ p_pos p = Some (mkPos f h v) /\ p_pos p' = Some (mkPos f h (s64 (v + n))) /\ p_disk p' = p_disk p.
  Proof.
    intros H. inversion H as [| | | | | | | | | | e' n q q' Ha En Em| | | | | | | | | | | | | | | |]; subst e' q q'. inversion Em as [q q' f h v Hp G]; subst q q'.
    exists n, f, h, v. rewrite section_pos in Hp. split; [exact En|]. split; [exact Hp|]. rewrite <- section_pos in Hp. split; [exact (proj1 (goes_pos _ _ _ _ _ _ G Hp))|].
    inversion G; subst. cbn. unfold new_section. destruct (p_arch p); reflexivity.
  Qed.

  Lemma area_result shared size fill position c p p' : place files L P (CArea shared size fill position c) p p' ->
    exists start n p1 p2 f h v v',
      (match position with
       | Some e => eval e (sees L p) = Some start /\ goes start (new_section p) p1
       | None => p1 = p /\ start = v_virtual (sees L p)
       end) /\
      eval size (sees L p1) = Some n /\ 0 <= n /\ place files L P c p1 p2 /\
      p_pos p2 = Some (mkPos f h v) /\ v <= start + n /\ p_pos p' = Some (mkPos f h v') /\
      match fill with
      | Some e => v' = start + n /\
          exists b w p3, eval e (sees L p1) = Some b /\ v <= w <= start + n /\ p_pos p3 = Some (mkPos f h w) /\ p_disk p3 = p_disk p2 /\
            emits files (repeat (u8 b) (Z.to_nat (start + n - w))) p3 p'
      | None => p_disk p' = p_disk p2 /\ v' = if shared then start + n else v
      end.
  Proof.
    intros H. inversion H as [| | | | | | | | | | | | | | | | | | | | sh sz fi po c' start n q p1 p2 q' f h v Hpos Hsz Hn Hc Hp2 Hfit Hend| | | | | |]; subst sh sz fi po c' q q'.
    exists start, n, p1, p2, f, h, v. destruct fill as [fe|].
    - destruct Hend as (b & used & p3 & Eb & Hu & Hm & Em). exists (start + n).
      assert (K : p_pos p3 = Some (mkPos f h (v + used)) /\ p_disk p3 = p_disk p2).
      { destruct Hm as [[-> ->]|G]; [rewrite Z.add_0_r; auto|]. split; [exact (proj1 (goes_pos _ _ _ _ _ _ G Hp2))|destruct G; reflexivity]. }
      destruct K as [K1 K2]. destruct (emits_pos _ _ _ _ _ _ _ Em K1) as [K3 _]. rewrite repeat_length, Z2Nat.id in K3 by lia.
      split; [destruct position; tauto|]. split; [exact Hsz|]. split; [exact Hn|]. split; [exact Hc|]. split; [exact Hp2|]. split; [lia|].
      split; [rewrite K3; do 2 f_equal; lia|]. split; [reflexivity|]. exists b, (v + used), p3. split; [exact Eb|]. split; [lia|]. split; [exact K1|]. split; [exact K2|].
      replace (start + n - (v + used)) with (n - (v - start) - used) by lia. exact Em.
    - destruct shared.
      + exists (start + n). split; [destruct position; tauto|]. split; [exact Hsz|]. split; [exact Hn|]. split; [exact Hc|]. split; [exact Hp2|]. split; [lia|].
        split; [exact (proj1 (goes_pos _ _ _ _ _ _ Hend Hp2))|]. split; [destruct Hend; reflexivity|reflexivity].
      + exists v. subst p'. split; [destruct position; tauto|]. repeat (split; [first [assumption|lia]|]). auto.
  Qed.
  Lemma pool_result p p' : place files L P CPool p p' ->
    exists values f h v, p_pos p = Some (mkPos f h v) /\
      (forall l, In l (p_pending p) -> exists k, nth_error values k = Some (pe_value l) /\ P (pe_id l) = v + 4 * Z.of_nat k /\
         reaches (pe_thumb l) (literal_distance (pe_thumb l) (pe_pos l) (P (pe_id l)))) /\
      (forall k, (k < List.length values)%nat -> exists l, In l (p_pending p) /\ P (pe_id l) = v + 4 * Z.of_nat k) /\
      (exists q, emits files (unit_bytes (p_big p) (map (fun x => (4%nat, x)) values)) p q /\ p' = pending q []) /\ p_pending p' = [].
  Proof.
    intros H. inversion H as [| | | | | | | | | | | | | | | | | | | | | | | | |values f h v q q' Hp H1 H2 Em|]; subst q p'.
    exists values, f, h, v. split; [exact Hp|]. split; [exact H1|]. split; [exact H2|]. split; [exists q'; auto|reflexivity].
  Qed.
End Commands.

(** ** Pools *)

Lemma find_value_none l v i : find_value l v i = None -> ~ In v l.
Proof.
  revert i. induction l as [|x l IH]; intros i; cbn [find_value]; [intros _ []|]. destruct (Z.eqb_spec x v); [discriminate|]. intros H [E|E]; [congruence|]. exact (IH _ H E).
Qed.
Lemma find_value_bound l v i k : find_value l v i = Some k -> (i <= k < i + List.length l)%nat.
Proof.
  revert i. induction l as [|x l IH]; intros i; cbn [find_value List.length]; [discriminate|]. destruct (x =? v); [intros H; injection H as <-; lia|]. intros H. specialize (IH _ H). lia.
Qed.
Lemma nodup_snoc (l : list Z) v : NoDup l -> ~ In v l -> NoDup (l ++ [v]).
Proof.
  intros N I. apply NoDup_rev in N. rewrite <- (rev_involutive (l ++ [v])). apply NoDup_rev. rewrite rev_app_distr. cbn. constructor; [|exact N]. rewrite <- in_rev. exact I.
Qed.
Lemma pool_distinct passes position l : passes < 10 -> forall values w, NoDup values -> NoDup (fst (pool_loop passes position l values w)).
Proof.
  intros Hp. induction l as [|e l IH]; intros values w N; cbn [pool_loop]; [exact N|]. apply IH. destruct (Z.ltb_spec passes 10); [|lia].
  destruct (find_value values (pe_value e) 0) as [i|] eqn:F.
  - apply find_value_bound in F. destruct (Nat.eqb_spec i (List.length values)); [lia|exact N].
  - rewrite Nat.eqb_refl. apply nodup_snoc; [exact N|]. eapply find_value_none. exact F.
Qed.
Lemma pool_sharing passes a w a' w' b : passes < 10 -> pool_validate passes a w = ROk (a', w', b) -> NoDup (snd a').
Proof.
  intros Hp H. unfold pool_validate in H. destruct (file_id w) as [w1 id].
  match type of H with context [pool_loop ?a1 ?a2 ?a3 ?a4 ?a5] => pose proof (pool_distinct a1 a2 a3 Hp a4 a5 (NoDup_nil _)) as N; destruct (pool_loop a1 a2 a3 a4 a5) as [values w2] end.
  unbind H w3 E. split3 H. subst a'. exact N.
Qed.
(** From the tenth pass on every load has a slot of its own. *)
Lemma pool_plain passes position l : 10 <= passes -> forall values w, fst (pool_loop passes position l values w) = values ++ map pe_value l.
Proof.
  intros Hp. induction l as [|e l IH]; intros values w; cbn [pool_loop map]; [cbn; rewrite app_nil_r; reflexivity|]. rewrite IH. destruct (Z.ltb_spec passes 10); [lia|].
  rewrite Nat.eqb_refl, <- app_assoc. reflexivity.
Qed.

(** ** What is in force at the start *)

Lemma start_in_force files L k big t c before after : produces files L (CSeq (CArch k big) (CSeq (CTable t) c)) before after ->
  exists P p', place files L P c (mkPst None big before t k no_delay []) p' /\ p_disk p' = after /\ p_pending p' = [].
Proof.
  intros (P & p & p' & Hp & Hd & Hq & Hl & Pl & Hd' & Hq'). exists P, p'. split; [|auto].
  inversion Pl as [| a b q1 q2 q3 Pa Pb| | | | | | | | | | | | | | | | | | | | | | | | |]; subst a b q1 q3. inversion Pa; subst.
  inversion Pb as [| a b q1 q2 q3 Pc Pd| | | | | | | | | | | | | | | | | | | | | | | | |]; subst a b q1 q3. inversion Pc; subst. cbn in Pd. rewrite Hp, Hq, Hl in Pd. exact Pd.
Qed.

(** ** Single commands *)

Lemma carried_place files writable own_big c w e w' e' : carried_out files writable own_big c w e w' e' ->
  sync files (w_fm w') (w_fm e') /\ place files (w_labels w) (w_slots e) c (pst_of w e) (pst_of w' e').
Proof.
  intros [Hh Sy Wf N Sl (passes & nofile & a & a' & F & V & E) B].
  assert (Cx : ctx (w_slots e) w (ids c) w') by (split; [exact N|intros k _ _; rewrite Sl; reflexivity]).
  destruct (sim_main files writable own_big Hh c passes nofile a w a' w' e e' (w_slots e) Sy Wf F V B E eq_refl Cx) as (H1 & H2 & _). auto.
Qed.
