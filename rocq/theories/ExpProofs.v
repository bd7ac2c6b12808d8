(** Proofs about the symbols an import gives to the source. *)

Require Import ZArith String Ascii List Bool Lia.
From Verif Require Import LexModel SymModel ElfModel ExpModel ExpSpec.
Import ListNotations.
Local Open Scope list_scope.

Section Machine.
  Variable m : machine.
  Definition tab (r : xtable * list xsym * list xerr) : xtable := fst (fst r).
  Definition syms (r : xtable * list xsym * list xerr) : list xsym := snd (fst r).
  Definition errs (r : xtable * list xsym * list xerr) : list xerr := snd r.

  Definition tab1 (t : xtable) (s : xsym) : xtable := fst (fst (export1 m t s)).
  Definition err1 (t : xtable) (s : xsym) : list xerr := snd (export1 m t s).
  Lemma export_cons : forall t s l, tab (export m t (s :: l)) = tab (export m (tab1 t s) l) /\
    errs (export m t (s :: l)) = err1 t s ++ errs (export m (tab1 t s) l) /\
    syms (export m t (s :: l)) = snd (fst (export1 m t s)) :: syms (export m (tab1 t s) l).
  Proof.
    intros t s l. unfold tab1, err1, tab, errs, syms. cbn [export]. destruct (export1 m t s) as ((t1 & s1) & e1). cbn [fst snd].
    destruct (export m t1 l) as ((t2 & l2) & e2). auto.
  Qed.

  (** One symbol *)
  Lemma one : forall t s,
    (valid_name (key s) = true /\ t (key s) = XFree /\ err1 t s = [] /\ tab1 t s = xset t (key s) (XLabel (label_of m s))) \/
    (valid_name (key s) = true /\ (exists l, t (key s) = XLabel l) /\ err1 t s = [XDefined (x_name s)] /\ tab1 t s = t) \/
    ((valid_name (key s) = false \/ t (key s) = XEqu) /\ err1 t s = [XInvalid (x_name s)] /\ tab1 t s = t).
  Proof.
    intros t s. unfold err1, tab1, export1, key. destruct (valid_name (lower_string (x_name s))); cbn [negb fst snd].
    - destruct (t (lower_string (x_name s))) as [| |l] eqn:T; cbn [fst snd].
      + left. auto.
      + right. right. auto.
      + right. left. split; [reflexivity|]. split; [exists l; reflexivity|]. auto.
    - right. right. auto.
  Qed.

  Lemma xset_same : forall t n e, xset t n e n = e.
  Proof. intros t n e. unfold xset. rewrite String.eqb_refl. reflexivity. Qed.
  Lemma xset_other : forall t n e k, k <> n -> xset t n e k = t k.
  Proof. intros t n e k D. unfold xset. apply String.eqb_neq in D. rewrite D. reflexivity. Qed.

  Lemma accepted : forall l t, errs (export m t l) = [] <-> importable t l.
  Proof.
    induction l as [|s l IH]; intros t.
    - split; [|reflexivity]. intros _. split; [intros s []|constructor].
    - destruct (export_cons t s l) as (_ & E & _). rewrite E. destruct (one t s) as [(V & F & E1 & T1)|[(V & (x & F) & E1 & _)|(V & E1 & _)]]; rewrite E1.
      + change ([] ++ errs (export m (tab1 t s) l)) with (errs (export m (tab1 t s) l)). rewrite IH, T1. unfold importable. split.
        * intros (A & N). split.
          { intros y [<-|Y]; [auto|]. destruct (A y Y) as (Vy & Ty). split; [exact Vy|]. destruct (string_dec (key y) (key s)) as [Q|Q].
            - rewrite Q, xset_same in Ty. discriminate Ty.
            - rewrite xset_other in Ty by exact Q. exact Ty. }
          constructor; [|exact N]. intros I. apply in_map_iff in I. destruct I as (y & Q & Y). destruct (A y Y) as (_ & Ty). rewrite Q, xset_same in Ty. discriminate Ty.
        * intros (A & N). inversion N as [|? ? N1 N2]. split; [|exact N2]. intros y Y. destruct (A y (or_intror Y)) as (Vy & Ty). split; [exact Vy|].
          rewrite xset_other; [exact Ty|]. intros Q. apply N1. rewrite <- Q. apply in_map. exact Y.
      + split; [discriminate|]. intros (A & _). destruct (A s (or_introl eq_refl)) as (_ & T). congruence.
      + split; [discriminate|]. intros (A & _). destruct (A s (or_introl eq_refl)) as (V2 & T). destruct V; congruence.
  Qed.

  (** The labels that were there stay, and nothing else but the first symbols comes in. *)
  Lemma kept : forall l t n, t n <> XFree -> tab (export m t l) n = t n.
  Proof.
    induction l as [|s l IH]; intros t n H; [reflexivity|]. destruct (export_cons t s l) as (E & _ & _). rewrite E.
    destruct (one t s) as [(_ & F & _ & T1)|[(_ & _ & _ & T1)|(_ & _ & T1)]]; rewrite T1.
    - assert (D : n <> key s) by (intros ->; contradiction). rewrite IH; [apply xset_other; exact D|]. rewrite xset_other by exact D. exact H.
    - apply IH, H.
    - apply IH, H.
  Qed.
  Lemma defined : forall l t n s, t n = XFree -> valid_name n = true -> first_with n l s -> tab (export m t l) n = XLabel (label_of m s).
  Proof.
    induction l as [|x l IH]; intros t n s F V H.
    - inversion H as [a y b K A Q]. destruct a; discriminate Q.
    - destruct (export_cons t x l) as (E & _ & _). rewrite E. inversion H as [a y b K A Q]. subst y. destruct a as [|z a].
      + assert (x = s) by (cbn in Q; congruence). subst x. destruct (one t s) as [(_ & _ & _ & T1)|[(_ & (k & G) & _)|([W|W] & _)]]; try (rewrite K in *; congruence).
        rewrite T1. rewrite kept; [rewrite <- K; apply xset_same|]. rewrite <- K, xset_same. discriminate.
      + assert (z = x) by (cbn in Q; congruence). assert (L : l = a ++ s :: b) by (cbn in Q; congruence). subst z.
        assert (D : n <> key x) by (intros Z; apply (A x (or_introl eq_refl)); auto).
        apply IH; [|exact V|rewrite L; constructor; [exact K|intros y Y; apply A; right; exact Y]].
        destruct (one t x) as [(_ & _ & _ & T1)|[(_ & _ & _ & T1)|(_ & _ & T1)]]; rewrite T1; [rewrite xset_other by exact D|..]; exact F.
  Qed.
  Lemma untouched : forall l t n, (valid_name n = false \/ forall x, In x l -> key x <> n) -> tab (export m t l) n = t n.
  Proof.
    induction l as [|x l IH]; intros t n H; [reflexivity|]. destruct (export_cons t x l) as (E & _ & _). rewrite E. rewrite IH.
    - destruct (one t x) as [(V & _ & _ & T1)|[(_ & _ & _ & T1)|(_ & _ & T1)]]; rewrite T1; try reflexivity. apply xset_other. intros ->.
      destruct H as [H|H]; [congruence|]. exact (H x (or_introl eq_refl) eq_refl).
    - destruct H as [H|H]; [left; exact H | right; intros y Y; apply H; right; exact Y].
  Qed.

  (** The messages *)
  Lemma defined_message : forall l t name, In (XDefined name) (errs (export m t l)) <->
    exists a s b, l = a ++ s :: b /\ x_name s = name /\ valid_name (key s) = true /\ taken t a s.
  Proof.
    induction l as [|x l IH]; intros t name.
    - split; [intros []|]. intros (a & s & b & E & _). destruct a; discriminate E.
    - destruct (export_cons t x l) as (_ & E & _). rewrite E, in_app_iff, IH. clear E.
      assert (P : forall s a, valid_name (key s) = true -> (taken (tab1 t x) a s <-> taken t (x :: a) s)).
      { intros s a V. unfold taken. destruct (one t x) as [(Vx & F & _ & T1)|[(Vx & (k & F) & _ & T1)|(W & _ & T1)]]; rewrite T1.
        - destruct (string_dec (key s) (key x)) as [Q|Q].
          + rewrite Q, xset_same. split.
            * intros _. right. split; [exact F|]. exists x. split; [left; reflexivity|reflexivity].
            * intros _. left. eexists. reflexivity.
          + rewrite xset_other by exact Q. split; (intros [H|(H & y & Y & K)]; [left; exact H|right; split; [exact H|exists y]]).
            * split; [right; exact Y|exact K].
            * destruct Y as [<-|Y]; [congruence|auto].
        - split; (intros [H|(H & y & Y & K)]; [left; exact H|right; split; [exact H|exists y]]).
          + split; [right; exact Y|exact K].
          + destruct Y as [<-|Y]; [rewrite K in F; congruence|auto].
        - split; (intros [H|(H & y & Y & K)]; [left; exact H|right; split; [exact H|exists y]]).
          + split; [right; exact Y|exact K].
          + destruct Y as [<-|Y]; [|auto]. destruct W as [W|W]; rewrite K in W; congruence. }
      split.
      + intros [H|(a & s & b & -> & N & V & T)].
        * exists [], x, l. destruct (one t x) as [(_ & _ & E1 & _)|[(V & F & E1 & _)|(_ & E1 & _)]]; rewrite E1 in H; [destruct H| |destruct H as [H|[]]; discriminate H].
          destruct H as [H|[]]. assert (x_name x = name) by congruence. split; [reflexivity|]. split; [assumption|]. split; [exact V|]. left. exact F.
        * exists (x :: a), s, b. split; [reflexivity|]. split; [exact N|]. split; [exact V|]. apply P; assumption.
      + intros (a & s & b & E & N & V & T). destruct a as [|y a].
        * left. assert (x = s) by (cbn in E; congruence). subst x. destruct T as [(k & T)|(_ & y & [] & _)].
          destruct (one t s) as [(_ & F & _)|[(_ & _ & E1 & _)|([W|W] & _)]]; try congruence. rewrite E1. left. congruence.
        * right. assert (y = x) by (cbn in E; congruence). assert (l = a ++ s :: b) by (cbn in E; congruence). subst y. exists a, s, b.
          split; [assumption|]. split; [exact N|]. split; [exact V|]. apply P; assumption.
  Qed.

  (** The addresses *)
  Lemma addresses : forall l t, importable t l ->
    syms (export m t l) = map (fun s => mkX (x_name s) (fst (setSymbolAddress m (x_address s) (x_type s))) (x_type s)) l.
  Proof.
    induction l as [|s l IH]; intros t H; [reflexivity|]. destruct (export_cons t s l) as (_ & _ & E). rewrite E.
    pose proof (proj2 (accepted (s :: l) t) H) as R. destruct (export_cons t s l) as (_ & E2 & _). rewrite E2 in R. apply app_eq_nil in R. destruct R as (R1 & R2).
    rewrite (IH (tab1 t s)) by (apply accepted; exact R2). cbn [map]. f_equal.
    destruct H as (A & _). destruct (A s (or_introl eq_refl)) as (V & F). unfold key in V, F. unfold export1. rewrite V, F. reflexivity.
  Qed.
End Machine.
