(** Supporting proofs about the loop of passes and a whole run. *)

Require Import ZArith List Bool Lia ZifyBool.
From Verif Require Import Ints IntsLemmas Res FileModel BytesSpec FileSpec FileProofs AllocModel AsmModel AsmSpec AsmProofs AsmSimProofs.
Import ListNotations.
Local Open Scope Z_scope.

(** ** The end of a program *)

Lemma close_disk m : f_disk (close_file m) = f_disk m.
Proof. unfold close_file. destruct (active m) as [[i g]|]; reflexivity. Qed.
Lemma close_printed m : f_printed (close_file m) = f_printed m.
Proof. unfold close_file. destruct (active m) as [[i g]|]; reflexivity. Qed.
Lemma clear_printed w : f_printed (w_fm (clear_queued w)) = f_printed (w_fm w). Proof. reflexivity. Qed.
Lemma start_good files w : good files w -> good files (start_pass (clear_queued w)).
Proof. intros [A B]. split; assumption. Qed.
Lemma revalidate_fm w : w_fm (revalidate w) = w_fm w \/ w_fm (revalidate w) = queue (w_fm w).
Proof. unfold revalidate. destruct (w_pool w); auto. Qed.
Lemma revalidate_good files w : good files w -> good files (revalidate w) /\ f_disk (w_fm (revalidate w)) = f_disk (w_fm w).
Proof. intros [O Q]. unfold good, files_ok. destruct (revalidate_fm w) as [-> | ->]; (split; [split; [exact O|exact Q]|reflexivity]). Qed.
Lemma revalidate_error w : has_error (revalidate w) = false -> w_pool w = [] /\ has_error w = false.
Proof. unfold revalidate. destruct (w_pool w); [auto|discriminate]. Qed.
Lemma revalidate_labels w : w_labels (revalidate w) = w_labels w /\ w_slots (revalidate w) = w_slots w /\ w_pool (revalidate w) = [] /\ w_delay (revalidate w) = no_delay.
Proof. unfold revalidate. destruct (w_pool w); auto. Qed.

Section Loop.
  Variable files : list gfile.
  Variable writable : nat -> bool.

  (** The last pass *)
  Definition last_pass (c : src) (d : disk) (a' : ann c) (w' : world) : Prop :=
    exists passes a0 w0 wl,
      0 <= passes < 100 /\ good files w0 /\ active (w_fm w0) = None /\ f_disk (w_fm w0) = d /\ w_pool w0 = [] /\ w_delay w0 = no_delay /\
      flags (w_labels w0) c a0 /\ validate writable false passes c a0 w0 = ROk (a', wl, false) /\ has_error wl = false /\ w_pool wl = [] /\ w' = revalidate wl.

  Lemma loop_last fuel : forall passes c a w a' w', well_formed files c -> apart c -> 0 <= passes -> good files w -> flags (w_labels w) c a -> w_pool w = [] -> w_delay w = no_delay ->
    pass_loop writable fuel passes c a w = ROk (a', w') -> has_error w' = false -> last_pass c (f_disk (w_fm w)) a' w'.
  Proof.
    induction fuel as [|fuel IH]; intros passes c a w a' w' Wf Ap P0 G F Pw Dw H B; cbn [pass_loop] in H; [discriminate|].
    destruct (Z.leb_spec 100 passes) as [P|P]; [apply rok in H; apply duo in H; destruct H as [_ <-]; discriminate|].
    unbind H r E. destruct r as [[a1 w1] again]. pose proof (start_good _ _ G) as G0. pose proof (validate_keep files _ _ _ _ _ _ _ _ _ E G0) as (G1 & D1 & B1 & _).
    destruct (revalidate_labels w1) as (Rl & Rs & Rp & Rd). destruct (revalidate_good _ _ G1) as [G2 D2].
    destruct again.
    - assert (D : f_disk (w_fm (revalidate w1)) = f_disk (w_fm w)) by (rewrite D2, D1; reflexivity). rewrite <- D.
      apply (IH (passes + 1) c a1 (revalidate w1) a' w'); try assumption; [lia|].
      rewrite Rl. eapply validate_flags; [exact Wf|exact Ap|exact G0|exact E|]. exact F.
    - apply rok in H. apply duo in H. destruct H as [<- <-]. destruct (revalidate_error _ B) as [Pl Bl].
      exists passes, a, (start_pass (clear_queued w)), w1. repeat (split; [first [assumption|reflexivity|lia]|]). reflexivity.
  Qed.

  (** Validating leaves the disk alone. *)
  Lemma loop_disk fuel : forall passes c a w a' w', good files w -> pass_loop writable fuel passes c a w = ROk (a', w') ->
    good files w' /\ f_disk (w_fm w') = f_disk (w_fm w).
  Proof.
    induction fuel as [|fuel IH]; intros passes c a w a' w' G H; cbn [pass_loop] in H; [discriminate|].
    destruct (100 <=? passes); [apply rok in H; apply duo in H; destruct H as [_ <-]; split; [exact G|reflexivity]|].
    unbind H r E. destruct r as [[a1 w1] again]. pose proof (start_good _ _ G) as G0. pose proof (validate_keep files _ _ _ _ _ _ _ _ _ E G0) as (G1 & D1 & _).
    destruct (revalidate_good _ _ G1) as [G2 D2]. destruct again.
    - destruct (IH _ _ _ _ _ _ G2 H) as [G3 D3]. split; [exact G3|]. rewrite D3, D2, D1. reflexivity.
    - apply rok in H. apply duo in H. destruct H as [_ <-]. split; [exact G2|]. rewrite D2, D1. reflexivity.
  Qed.
End Loop.

(** The number of passes is bounded by the code; the fuel is never used up. *)
Lemma loop_fuel writable fuel : forall passes c a w, 100 - passes < Z.of_nat fuel -> 0 <= passes <= 100 ->
  pass_loop writable fuel passes c a w = RErr -> exists p a' w', 0 <= p < 100 /\ validate writable false p c a' w' = RErr.
Proof.
  induction fuel as [|fuel IH]; intros passes c a w Hf Hp H; cbn [pass_loop] in H; [lia|].
  destruct (Z.leb_spec 100 passes) as [P|P]; [discriminate|].
  destruct (validate writable false passes c a (start_pass (clear_queued w))) as [[[a1 w1] again]| |] eqn:E; cbn [rbind] in H; [|exists passes, a, (start_pass (clear_queued w)); split; [lia|exact E]|discriminate].
  destruct again; [|discriminate]. eapply IH; [| |exact H]; lia.
Qed.

(** ** Encoding *)

Section Run.
  Variable files : list gfile.
  Variable writable : nat -> bool.
  Variable own_big : bool.
  Hypothesis headers : Forall (fun g => is_int64 (g_header0 g)) files.

  Lemma start_sync m me : files_ok files m -> files_ok files me -> active m = None -> f_disk m = f_disk me -> sync files m me.
  Proof.
    intros G [O Q] A D. constructor; [exact G|exact O| | |].
    - intros j g N _. exact (quiet_nth _ _ _ Q N).
    - intros n. rewrite D. auto.
    - rewrite A. intros j g Ae. exact (quiet_nth _ _ _ Q (proj2 (active_some _ _ _ Ae))).
  Qed.

  Lemma encoded c d a' w' e' : well_formed files c -> NoDup (ids c) -> last_pass files writable c d a' w' -> f_disk (w_fm w') = d ->
    encode writable own_big c a' w' = ROk e' ->
    exists w0 wl, w_labels w' = w_labels w0 /\ place files (w_labels w') (w_slots w') c (pst_of w0 w') (pst_of wl e') /\
      active (w_fm w0) = None /\ w_pool w0 = [] /\ w_delay w0 = no_delay /\ w_pool wl = [] /\ sync files (w_fm wl) (w_fm e').
  Proof.
    intros Wf N (passes & a0 & w0 & wl & _ & G0 & A0 & D0 & P0 & Dl0 & F & V & B & Pl & ->) Dd He.
    pose proof (validate_keep files _ _ _ _ _ _ _ _ _ V G0) as (G1 & D1 & _). destruct (revalidate_labels wl) as (Rl & Rs & _). destruct (revalidate_good _ _ G1) as [G2 D2].
    assert (N0 : nonneg w0) by (unfold nonneg; rewrite A0; exact I).
    pose proof (validate_still files _ _ _ _ _ _ _ _ Wf G0 N0 F V B) as Lb.
    assert (Sy : sync files (w_fm w0) (w_fm (revalidate wl))) by (apply start_sync; [exact G0|exact G2|exact A0|congruence]).
    assert (Cx : ctx (w_slots (revalidate wl)) w0 (ids c) wl).
    { split; [unfold pids; rewrite P0; exact N|]. intros k _ _. rewrite Rs. reflexivity. }
    destruct (sim_main files writable own_big headers c passes false a0 w0 a' wl (revalidate wl) e' (w_slots (revalidate wl)) Sy Wf F V B He eq_refl Cx) as (Pl' & Sy' & _).
    exists w0, wl. rewrite Rl, Lb. auto 10.
  Qed.

  (** ** A run *)

  Lemma run_ok c w w' : run writable own_big c w = ROk (true, w') ->
    exists a w1 e, pass_loop writable 101 0 c (init c) (with_pool w [] (w_slots w)) = ROk (a, w1) /\ has_error w1 = false /\
      encode writable own_big c a w1 = ROk e /\ f_disk (w_fm w') = f_disk (w_fm e) /\ w_labels w' = w_labels e.
  Proof.
    unfold run. intros H. unbind H r E. destruct r as [ok w2]. apply rok in H. apply duo in H. destruct H as [Hok Hw].
    destruct (f_printed (w_fm w)); [apply rok in E; apply duo in E; destruct E as [<- _]; discriminate|].
    unfold encode_assembly in E. unbind E r E1. destruct r as [a w1]. exists a, w1.
    destruct (has_error w1); [apply rok in E; apply duo in E; destruct E as [<- _]; discriminate|].
    unbind E e E2. exists e. split; [exact E1|]. split; [reflexivity|]. split; [exact E2|]. apply rok in E. apply duo in E. destruct E as [_ Ew].
    assert (C : forall u, f_disk (w_fm (if is_some (active (w_fm u)) then with_fm u (close_file (w_fm u)) else u)) = f_disk (w_fm u) /\
                w_labels (if is_some (active (w_fm u)) then with_fm u (close_file (w_fm u)) else u) = w_labels u).
    { intros u. destruct (is_some (active (w_fm u))); [|auto]. split; [apply close_disk|reflexivity]. }
    rewrite <- Hw, <- Ew. destruct (C (if is_some (active (w_fm e)) then with_fm e (close_file (w_fm e)) else e)) as [-> ->]. apply C.
  Qed.

  Lemma fresh_good c w : fresh files c w -> good files (with_pool w [] (w_slots w)).
  Proof.
    intros [Ff Q _ _ _ _ _]. split; [|exact Q]. unfold objects. cbn [with_pool w_fm]. rewrite Ff. clear. induction files; constructor; [apply static_refl|assumption].
  Qed.

  (** Encoding defines no labels. *)
  Definition same_labels (w w' : world) : Prop := w_labels w' = w_labels w.
  Lemma same_trans w w1 w2 : same_labels w w1 -> same_labels w1 w2 -> same_labels w w2.
  Proof. unfold same_labels. congruence. Qed.
  Lemma write_labels w l w' : w_write w l = ROk w' -> same_labels w w'.
  Proof. unfold w_write. intros H. unbind H r E. apply rok in H. subst. reflexivity. Qed.
  Lemma units_labels w l w' : w_units writable own_big w l = ROk w' -> same_labels w w'.
  Proof. unfold w_units. intros H. unbind H r E. apply rok in H. subst. reflexivity. Qed.
  Lemma fill_labels fuel : forall block byte n w w', fill_loop fuel block byte n w = ROk w' -> same_labels w w'.
  Proof.
    induction fuel as [|fuel IH]; intros block byte n w w' H; cbn [fill_loop] in H; [discriminate|]. destruct (block <? n); [|eapply write_labels; exact H].
    unbind H w1 E. eapply same_trans; [eapply write_labels; exact E|eapply IH; exact H].
  Qed.
  Lemma area_labels fuel : forall byte n w w', area_loop fuel byte n w = ROk w' -> same_labels w w'.
  Proof.
    induction fuel as [|fuel IH]; intros byte n w w' H; cbn [area_loop] in H; [discriminate|]. destruct (0 <? n); [|apply rok in H; subst; reflexivity].
    unbind H w1 E. eapply same_trans; [eapply write_labels; exact E|eapply IH; exact H].
  Qed.
  Lemma seek_same w x w' : w_seek w x = ROk w' -> same_labels w w'.
  Proof. unfold w_seek. intros H. unbind H r E. apply rok in H. subst. reflexivity. Qed.
  Lemma seek_physical_same w x w' : w_seek_physical w x = ROk w' -> same_labels w w'.
  Proof. unfold w_seek_physical. intros H. unbind H r E. apply rok in H. subst. reflexivity. Qed.
  Lemma advance_same w x w' : w_advance w x = ROk w' -> same_labels w w'.
  Proof. unfold w_advance. intros H. unbind H r E. apply rok in H. subst. reflexivity. Qed.
  Lemma section_same w : same_labels w (next_section w).
  Proof. unfold next_section, same_labels. destruct (w_arch w); reflexivity. Qed.
  Lemma encode_labels c : forall a w w', encode writable own_big c a w = ROk w' -> same_labels w w'.
  Proof.
    induction c; intros x w w' H; cbn [encode ann] in *; try (apply rok in H; subst; reflexivity).
    - unbind H w1 E. eapply same_trans; [eapply IHc1; exact E|eapply IHc2; exact H].
    - eapply IHc. exact H.
    - eapply same_trans; [apply section_same|]. destruct physical; [eapply seek_physical_same|eapply seek_same]; exact H.
    - unfold align_encode in H. destruct (al_size x <? 0); [discriminate|]. eapply fill_labels. exact H.
    - eapply same_trans; [apply section_same|]. eapply advance_same. exact H.
    - unbind H r E. apply rok in H. subst. reflexivity.
    - unfold incbin_encode in H. destruct (snd x =? 0); [apply rok in H; subst; reflexivity|]. destruct ((fst x <? 0) || (snd x <? 0)); [discriminate|]. eapply write_labels. exact H.
    - eapply units_labels. exact H.
    - match type of H with (if ?t then _ else _) = _ => destruct t end; [eapply IHc1|eapply IHc2]; exact H.
    - eapply IHc. exact H.
    - unbind H w1 E1. unbind H w2 E2. assert (K1 : same_labels w w1).
      { destruct (is_some position); [eapply same_trans; [apply section_same|eapply seek_same; exact E1]|apply rok in E1; subst; reflexivity]. }
      eapply same_trans; [exact K1|]. eapply same_trans; [eapply IHc; exact E2|]. unfold area_encode in H.
      match type of H with (if ?t then _ else _) = _ => destruct t end; [discriminate|]. destruct (is_some fill).
      + unbind H w3 E3. match type of H with (if ?t then _ else _) = _ => destruct t end; [discriminate|].
        eapply same_trans; [|eapply area_labels; exact H]. match type of E3 with (if ?t then _ else _) = _ => destruct t end; [apply rok in E3; subst; reflexivity|].
        apply advance_same in E3. exact E3.
      + destruct shared; [eapply advance_same; exact H|apply rok in H; subst; reflexivity].
    - unbind H w1 E1. unbind H w2 E2. eapply same_trans; [apply section_same|]. eapply same_trans; [eapply seek_same; exact E1|].
      eapply same_trans; [eapply IHc; exact E2|eapply seek_same; exact H].
    - eapply units_labels. exact H.
    - unfold load_encode in H. destruct (ld_short x); eapply units_labels; exact H.
    - eapply units_labels. exact H.
    - unbind H w1 E. eapply same_trans; [eapply IHc; exact E|eapply write_labels; exact H].
  Qed.

  Lemma run_produces c w w' : fresh files c w -> run writable own_big c w = ROk (true, w') ->
    produces files (w_labels w') c (f_disk (w_fm w)) (f_disk (w_fm w')).
  Proof.
    intros Fr H. pose proof (fresh_good _ _ Fr) as G. destruct (run_ok _ _ _ H) as (a & w1 & e & E1 & B1 & E2 & Dk & Lk). rewrite Lk, (encode_labels _ _ _ _ E2).
    destruct (loop_disk files _ _ _ _ _ _ _ _ G E1) as [G1 D1]. cbn [with_pool w_fm] in D1.
    assert (Lp : last_pass files writable c (f_disk (w_fm w)) a w1).
    { apply (loop_last files writable 101 0 c (init c) (with_pool w [] (w_slots w)) a w1); try assumption; try lia; try reflexivity; [exact (fr_wf _ _ _ Fr)|exact (fr_apart _ _ _ Fr)|apply flags_init|exact (fr_defs _ _ _ Fr)]. }
    destruct (encoded c _ a w1 e (fr_wf _ _ _ Fr) (fr_loads _ _ _ Fr) Lp D1 E2) as (w0 & wl & Lb & Pl & A0 & P0 & Dl0 & Pend & _).
    exists (w_slots w1), (pst_of w0 w1), (pst_of wl e). cbn [pst_of p_pos p_disk p_pending p_delay].
    split; [unfold vpos; rewrite A0; reflexivity|]. split; [exact D1|]. split; [exact P0|]. split; [exact Dl0|]. split; [exact Pl|]. split; [symmetry; exact Dk|exact Pend].
  Qed.
End Run.
