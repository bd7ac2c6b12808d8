(** The logger keeps what the history says. *)

Require Import ZArith List Bool String Lia.
From Verif Require Import LogModel LogSpec.
Import ListNotations.

Lemma print_line_fields s x : l_queue (print_line s x) = l_queue s /\ l_error (print_line s x) = l_error s /\
  l_fatal (print_line s x) = l_fatal s /\ l_strict (print_line s x) = l_strict s /\ l_level (print_line s x) = l_level s
  /\ l_silent (print_line s x) = l_silent s /\ l_errors (print_line s x) = l_errors s.
Proof. unfold print_line. destruct (l_level s) eqn:E; cbn; rewrite ?E; repeat split. Qed.

Definition bad (w : bool) (t : severity) : bool :=
  match t with Error | FatalError => true | Warning => w | Notice => false end.
Lemma bad_counts w t : bad w t = true <-> counts w t.
Proof. destruct t; cbn; intuition discriminate. Qed.

Lemma set_flags_fields s t : l_queue (set_flags s t) = l_queue s /\ l_error (set_flags s t) = (l_error s || bad (l_strict s) t) /\
  l_strict (set_flags s t) = l_strict s /\ l_level (set_flags s t) = l_level s /\ l_silent (set_flags s t) = l_silent s /\
  l_errors (set_flags s t) = l_errors s.
Proof.
  destruct t; cbn; repeat split; rewrite ?orb_true_r, ?orb_false_r; try reflexivity;
    destruct (l_strict s) eqn:E; cbn; rewrite ?E, ?orb_true_r, ?orb_false_r; reflexivity.
Qed.

Definition emit (s : logger) (t : severity) (x : string) : logger :=
  let s := push_error s x in
  let s := if l_silent s then s else print_line s x in
  set_flags s t.
Lemma emit_fields s t x : l_queue (emit s t x) = l_queue s /\ l_error (emit s t x) = (l_error s || bad (l_strict s) t) /\
  l_strict (emit s t x) = l_strict s /\ l_level (emit s t x) = l_level s /\ l_errors (emit s t x) = l_errors s ++ [x].
Proof.
  unfold emit.
  set (s1 := if l_silent (push_error s x) then push_error s x else print_line (push_error s x) x).
  assert (H : l_queue s1 = l_queue s /\ l_error s1 = l_error s /\ l_strict s1 = l_strict s /\ l_level s1 = l_level s /\
              l_errors s1 = l_errors s ++ [x]).
  { unfold s1. destruct (l_silent (push_error s x)); [cbn; auto|].
    destruct (print_line_fields (push_error s x) x) as (A & B & C & D & E & F & G). rewrite A, B, D, E, G. cbn. auto. }
  destruct H as (A & B & C & D & E). destruct (set_flags_fields s1 t) as (A' & B' & C' & D' & E' & F').
  rewrite A', B', C', D', F', A, B, C, D, E. auto.
Qed.

Lemma emit_all q : forall s, let s' := fold_left (fun s0 '(t, text) => emit s0 t text) q s in
    l_queue s' = l_queue s /\ l_strict s' = l_strict s /\ l_level s' = l_level s /\
    l_error s' = (l_error s || existsb (fun m => bad (l_strict s) (fst m)) q) /\ l_errors s' = l_errors s ++ map snd q.
Proof.
  induction q as [|[t x] q IH]; intros s; cbn [fold_left existsb map].
  - rewrite orb_false_r, app_nil_r. auto.
  - destruct (emit_fields s t x) as (A & B & C & D & E).
    destruct (IH (emit s t x)) as (A' & B' & C' & D' & E').
    rewrite A', B', C', D', E', A, B, C, D, E. cbn [fst snd].
    rewrite orb_assoc, <- app_assoc. auto.
Qed.
Lemma print_queue_fields s : let s' := print_queue s in
  l_queue s' = l_queue s /\ l_strict s' = l_strict s /\ l_level s' = l_level s /\
  l_error s' = (l_error s || existsb (fun m => bad (l_strict s) (fst m)) (l_queue s)) /\
  l_errors s' = l_errors s ++ map snd (l_queue s).
Proof. exact (emit_all (l_queue s) s). Qed.

Record keeps (s : logger) (h : list log_op) : Prop := mkKeeps {
  k_level : l_level s = depth h;
  k_strict : l_strict s = strict h;
  k_queue : forall t x, In (t, x) (l_queue s) <-> waits t x h;
  k_error : l_error s = true <-> failed h }.

Lemma waits_other t x o h : o <> ODrop -> o <> OReset -> (forall t x, o <> OQueue t x) -> waits t x (o :: h) <-> waits t x h.
Proof.
  intros H1 H2 H3. split; [|intros H; apply w_later; assumption].
  intros H. inversion H as [h' Hd E|o' h' A B C]; subst; [exfalso; apply (H3 t x); reflexivity|assumption].
Qed.
Lemma failed_other o h : o <> OReset -> (forall t x, o <> OPrint t x) -> o <> OFlush -> failed (o :: h) <-> failed h.
Proof.
  intros H1 H2 H3. split; [|intros H; apply f_later; assumption].
  intros H. inversion H as [t x h' Hd Hc E|t x h' Hw Hc E|o' h' A B E]; subst;
    [exfalso; apply (H2 t x); reflexivity|congruence|assumption].
Qed.

Lemma step_keeps s h o : keeps s h -> keeps (log_step s o) (o :: h).
Proof.
  intros [Kl Ks Kq Ke]. destruct o as [t x|t x| | | |b|b| |]; cbn [log_step].
  - unfold print_error. rewrite Kl. destruct (depth h) as [|d] eqn:Ed.
    + fold (emit s t x). destruct (emit_fields s t x) as (A & B & C & D & E). constructor; cbn [depth strict].
      * rewrite D, Kl, Ed. reflexivity.
      * rewrite C. exact Ks.
      * intros t' x'. rewrite A, Kq. symmetry. apply waits_other; discriminate.
      * rewrite B, orb_true_iff, Ke, bad_counts, Ks. split.
        -- intros [F|F]; [apply f_later; [discriminate|exact F]|apply f_print; assumption].
        -- intros F. inversion F as [t' x' h' Hd Hc Eq|t' x' h' Hw Hc Eq|o' h' Hn Hf Eq]; subst; auto.
    + constructor; cbn [depth strict].
      * rewrite Kl, Ed. reflexivity.
      * exact Ks.
      * intros t' x'. rewrite Kq. symmetry. apply waits_other; discriminate.
      * rewrite Ke. split; [intros F; apply f_later; [discriminate|exact F]|].
        intros F. inversion F as [t' x' h' Hd Hc Eq|t' x' h' Hw Hc Eq|o' h' Hn Hf Eq]; subst; [congruence|assumption].
  - unfold queue_error. rewrite Kl. destruct (depth h) as [|d] eqn:Ed.
    + constructor; cbn [depth strict l_level l_strict l_queue l_error].
      * congruence.
      * exact Ks.
      * intros t' x'. rewrite in_app_iff, Kq. cbn [In]. split.
        -- intros [H|[H|[]]]; [apply w_later; [discriminate|discriminate|exact H]|]. injection H as -> ->. apply w_here. exact Ed.
        -- intros H. inversion H as [h' Hd E|o' h' A B C]; subst; auto.
      * rewrite Ke. symmetry. apply failed_other; discriminate.
    + constructor; cbn [depth strict].
      * congruence.
      * exact Ks.
      * intros t' x'. rewrite Kq. split; [intros H; apply w_later; [discriminate|discriminate|exact H]|].
        intros H. inversion H as [h' Hd E|o' h' A B C]; subst; [congruence|assumption].
      * rewrite Ke. symmetry. apply failed_other; discriminate.
  - destruct (print_queue_fields s) as (A & B & C & D & _). constructor; cbn [depth strict].
    + congruence.
    + congruence.
    + intros t x. rewrite A, Kq. symmetry. apply waits_other; discriminate.
    + rewrite D, orb_true_iff, Ke, existsb_exists. split.
      * intros [F|([t x] & Hin & Hb)]; [apply f_later; [discriminate|exact F]|].
        apply (f_flush t x); [apply Kq; exact Hin|]. rewrite <- Ks. apply bad_counts. exact Hb.
      * intros F. inversion F as [t' x' h' Hd Hc Eq|t' x' h' Hw Hc Eq|o' h' Hn Hf Eq]; subst; [|left; assumption].
        right. exists (t', x'). split; [apply Kq; exact Hw|]. cbn [fst]. apply bad_counts. rewrite Ks. exact Hc.
  - constructor; cbn [depth strict clear_queue l_level l_strict l_queue l_error]; try assumption.
    + intros t x. split; [intros []|]. intros H. inversion H; subst; congruence.
    + rewrite Ke. symmetry. apply failed_other; discriminate.
  - constructor; cbn [depth strict log_clear l_level l_strict l_queue l_error]; try assumption; try reflexivity.
    + intros t x. split; [intros []|]. intros H. inversion H; subst; congruence.
    + split; [discriminate|]. intros F. inversion F; subst; congruence.
  - constructor; cbn [depth strict set_strict l_level l_strict l_queue l_error]; try assumption; try reflexivity.
    + intros t x. rewrite Kq. symmetry. apply waits_other; discriminate.
    + rewrite Ke. symmetry. apply failed_other; discriminate.
  - constructor; cbn [depth strict set_silent l_level l_strict l_queue l_error]; try assumption; try reflexivity.
    + intros t x. rewrite Kq. symmetry. apply waits_other; discriminate.
    + rewrite Ke. symmetry. apply failed_other; discriminate.
  - constructor; cbn [depth strict suppress set_level l_level l_strict l_queue l_error]; try assumption; try congruence.
    + intros t x. rewrite Kq. symmetry. apply waits_other; discriminate.
    + rewrite Ke. symmetry. apply failed_other; discriminate.
  - constructor; cbn [depth strict unsuppress set_level l_level l_strict l_queue l_error]; try assumption; try congruence.
    + intros t x. rewrite Kq. symmetry. apply waits_other; discriminate.
    + rewrite Ke. symmetry. apply failed_other; discriminate.
Qed.

Lemma run_keeps ops : keeps (log_run ops) (rev ops).
Proof.
  unfold log_run. induction ops as [|o ops IH] using rev_ind.
  - constructor; cbn; try reflexivity.
    + intros t x. split; [intros []|]. intros H. inversion H.
    + split; [discriminate|]. intros H. inversion H.
  - rewrite fold_left_app, rev_app_distr. cbn [fold_left rev app]. apply step_keeps. exact IH.
Qed.

Lemma level_run l : balanced l -> forall s, l_level (fold_left log_step l s) = l_level s.
Proof.
  assert (Step : forall o s, o <> OSuppress -> o <> OUnsuppress -> l_level (log_step s o) = l_level s).
  { intros o s H1 H2. destruct o as [t x|t x| | | |b|b| |]; try congruence; cbn [log_step]; try reflexivity.
    - unfold print_error. destruct (l_level s) eqn:E; [|congruence]. fold (emit s t x).
      destruct (emit_fields s t x) as (_ & _ & _ & D & _). congruence.
    - unfold queue_error. destruct (l_level s) eqn:E; cbn; congruence.
    - apply print_queue_fields. }
  induction 1 as [|o l H1 H2 B IH|a b Ba IHa Bb IHb]; intros s.
  - reflexivity.
  - cbn [fold_left]. rewrite IH. apply Step; assumption.
  - cbn [fold_left]. rewrite fold_left_app. cbn [fold_left log_step]. rewrite IHb. cbn [unsuppress set_level l_level].
    rewrite IHa. cbn [suppress set_level l_level]. reflexivity.
Qed.
