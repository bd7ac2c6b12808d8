Require Import ZArith Bool List String Ascii Lia.
Require Import Floats.SpecFloat.
Require Import Verif.Ints Verif.ExprModel Verif.ExprFuncModel Verif.ExprSpec.
Require Import Verif.ExprProofs Verif.ExprCmpProofs.
Import ListNotations.
Local Open Scope Z_scope.

(** [o'] has the same result as [o], and every message of [o] is in [pre] or queued by [o']. *)
Definition kept {A} (pre : list msg) (o o' : outcome A) : Prop :=
  match o, o' with
  | OVal v ms, OVal v' ms' => v = v' /\ incl ms (pre ++ ms')
  | OUb, OUb => True
  | OThrow, OThrow => True
  | _, _ => False
  end.

Lemma kept_refl : forall A pre (o : outcome A), kept pre o o.
Proof. intros A pre [v ms| |]; cbn; auto. split; auto. apply incl_appr, incl_refl. Qed.

Lemma kept_mono : forall A p q (o o' : outcome A), incl p q -> kept p o o' -> kept q o o'.
Proof.
  intros A p q [v ms| |] [v' ms'| |] H K; cbn in *; try tauto.
  destruct K as [E I]. split; auto. eapply incl_tran; [exact I|].
  apply incl_app; [apply incl_appl; auto|apply incl_appr, incl_refl].
Qed.

Lemma kept_trans : forall A p q (o o' o'' : outcome A),
  kept p o o' -> kept q o' o'' -> kept (p ++ q) o o''.
Proof.
  intros A p q [v ms| |] [v' ms'| |] [v'' ms''| |] K1 K2; cbn in *; try tauto.
  destruct K1 as [-> I1], K2 as [-> I2]. split; auto.
  intros m Hm. apply I1 in Hm. rewrite !in_app_iff in *. destruct Hm as [Hm|Hm]; auto.
  apply I2 in Hm. rewrite in_app_iff in Hm. tauto.
Qed.

Lemma kept_bind : forall A B p q (o o' : outcome A) (f f' : A -> outcome B),
  kept p o o' -> (forall a, kept q (f a) (f' a)) -> kept (p ++ q) (obind o f) (obind o' f').
Proof.
  intros A B p q [v ms| |] [v' ms'| |] f f' K1 K2; cbn in *; try tauto.
  destruct K1 as [-> I1]. specialize (K2 v').
  destruct (f v') as [b mb| |], (f' v') as [b' mb'| |]; cbn in *; try tauto.
  destruct K2 as [-> I2]. split; auto.
  intros m Hm. rewrite !in_app_iff in *. destruct Hm as [Hm|Hm].
  - apply I1 in Hm. rewrite in_app_iff in Hm. tauto.
  - apply I2 in Hm. rewrite in_app_iff in Hm. tauto.
Qed.

Lemma obind_val : forall A B (o : outcome A) (f : A -> outcome B) b ms,
  obind o f = OVal b ms ->
  exists a m1 m2, o = OVal a m1 /\ f a = OVal b m2 /\ ms = m1 ++ m2.
Proof.
  intros A B [a m1| |] f b ms H; cbn in H; try discriminate.
  destruct (f a) as [b' m2| |] eqn:E; try discriminate.
  inversion H; subst. eauto 10.
Qed.

(** Functions that may be folded depend on the context only. *)
Definition context_only (reg : registry) : Prop :=
  forall n fe, reg n = Some fe -> fe_safety fe <> Unsafe ->
  exists f, fe_fun fe = FValue f /\
    forall st st' vs, s_ctx st = s_ctx st' -> f st vs = f st' vs.

Ltac ctx_only_tac :=
  first [ reflexivity
        | unfold get_str, get_int, param0;
          repeat (first [reflexivity
                        | match goal with H : s_ctx _ = s_ctx _ |- _ => rewrite H end
                        | match goal with |- context [match ?x with _ => _ end] => destruct x end ]) ].

Lemma lookup_in : forall l n fe, lookup l n = Some fe -> exists k, In (k, fe) l.
Proof.
  induction l as [|[k e] t IH]; intros n fe H; cbn in H; try discriminate.
  destruct (String.eqb k n).
  - inversion H; subst. exists k. left; auto.
  - destruct (IH n fe H) as [k' Hk]. exists k'. right; auto.
Qed.

Lemma registry_context_only : forall arch users,
  In arch [[]; mips_functions; arm_functions] -> context_only (make_registry arch users).
Proof.
  intros arch users Ha n fe H Hs.
  apply lookup_in in H. destruct H as [k Hk]. rewrite !in_app_iff in Hk.
  destruct Hk as [Hk|[Hk|Hk]].
  - unfold builtin_functions in Hk.
    repeat (destruct Hk as [Hk|Hk];
      [ inversion Hk; subst; 
        try (exfalso; apply Hs; reflexivity); cbn [fe_fun];
        (eexists; split; [reflexivity|]); intros st st' vs Hc;
        unfold f_version, f_fileexists, f_filesize, f_tostring, f_tohex, f_int, f_float, f_frac, f_abs,
          f_round, f_min, f_max, f_strlen, f_substr, f_regex, f_regex_extract, f_find, f_rfind, f_read,
          f_readascii; rewrite <- ?Hc; reflexivity | ]).
    destruct Hk.
  - cbn in Ha. destruct Ha as [<-|[<-|[<-|[]]]]; cbn in Hk.
    + destruct Hk.
    + repeat (destruct Hk as [Hk|Hk]; [inversion Hk; subst; cbn [fe_fun]; eexists; split; [reflexivity|];
        intros st st' vs Hc; reflexivity|]). destruct Hk.
    + repeat (destruct Hk as [Hk|Hk]; [inversion Hk; subst; cbn [fe_fun]; eexists; split; [reflexivity|];
        intros st st' vs Hc; unfold f_isarm, f_isthumb; rewrite <- Hc; reflexivity|]). destruct Hk.
  - apply in_map_iff in Hk. destruct Hk as [[n' [a f]] [E _]]. inversion E; subst.
    cbn in Hs. congruence.
Qed.

Definition is_const (e : expr) : Prop := exists v, e = const_expr v.

Lemma eval_is_const : forall reg st st' e, is_const e -> eval reg st e = eval reg st' e.
Proof. intros reg st st' e [v ->]. rewrite !eval_const. reflexivity. Qed.

Lemma eval_list_ext : forall (ev ev' : expr -> outcome value) l,
  (forall e, In e l -> ev e = ev' e) -> eval_list ev l = eval_list ev' l.
Proof.
  intros ev ev' l. induction l as [|a t IH]; intros H; cbn; auto.
  rewrite H by (left; auto). destruct (ev' a) as [v ms| |]; cbn; auto.
  destruct (is_valid v); auto.
  cbn in IH. rewrite IH by (intros e He; apply H; right; auto). reflexivity.
Qed.

(** A node whose children are constants evaluates to the same in all states of one context. *)
Lemma eval_node_indep : forall reg st st' u e, context_only reg -> s_ctx st = s_ctx st' ->
  match e with
  | EUn _ a => is_const a
  | EBin _ a b => is_const a /\ is_const b
  | ECond c a b => is_const c /\ is_const a /\ is_const b
  | ECall n args => function_safe reg u n = true /\ Forall is_const args
  | _ => is_const e
  end -> eval reg st e = eval reg st' e.
Proof.
  intros reg st st' u e Hreg Hc H. destruct e; try (apply eval_is_const; exact H).
  - cbn [eval]. rewrite (eval_is_const reg st st' e H). reflexivity.
  - destruct H as [Ha Hb]. cbn [eval].
    rewrite (eval_is_const reg st st' e1 Ha), (eval_is_const reg st st' e2 Hb), Hc. reflexivity.
  - destruct H as (Ha & Hb & Hd). cbn [eval].
    rewrite (eval_is_const reg st st' e1 Ha), (eval_is_const reg st st' e2 Hb),
      (eval_is_const reg st st' e3 Hd), Hc. reflexivity.
  - destruct H as [Hs Hargs]. cbn [eval].
    rewrite (eval_list_ext (eval reg st) (eval reg st'))
      by (intros x Hx; apply eval_is_const; rewrite Forall_forall in Hargs; auto).
    unfold call_function, function_safe in *.
    destruct (reg name) as [fe|] eqn:E; auto.
    destruct (Hreg name fe E) as (f & Ef & If).
    { destruct (fe_safety fe); congruence. }
    rewrite Ef.
    destruct (List.length args <? fe_min fe)%nat; auto.
    destruct (fe_max fe <? List.length args)%nat; auto.
    destruct (eval_list (eval reg st') args) as [[vs|] ms| |]; cbn; auto.
    rewrite (If st st' vs Hc). reflexivity.
Qed.

Section Fold.
  Variable reg : registry.
  Variable st0 : estate.
  Variable u : bool.
  Hypothesis Hreg : context_only reg.

  Definition folded (e e' : expr) (c : bool) (ms : list msg) : Prop :=
    (forall st, s_ctx st = s_ctx st0 -> kept ms (eval reg st e) (eval reg st e')) /\
    (c = true -> is_const e').

  Lemma fold_node_ok : forall e1 can e' c ms,
    (can = true -> forall st, s_ctx st = s_ctx st0 -> eval reg st e1 = eval reg st0 e1) ->
    fold_node reg st0 e1 can = OVal (e', c) ms ->
    (forall st, s_ctx st = s_ctx st0 -> kept ms (eval reg st e1) (eval reg st e')) /\
    (c = true -> is_const e').
  Proof.
    intros e1 can e' c ms Hind H. unfold fold_node in H. destruct can.
    - apply obind_val in H. destruct H as (v & m1 & m2 & E1 & E2 & ->).
      unfold oret in E2. inversion E2; subst. split.
      + intros st Hst. rewrite Hind by auto. rewrite E1, eval_const. cbn.
        split; auto. rewrite !app_nil_r. apply incl_refl.
      + intros _. exists v. reflexivity.
    - unfold oret in H. inversion H; subst. split.
      + intros st _. apply kept_refl.
      + discriminate.
  Qed.

  Lemma simplify_list_ok : forall args,
    Forall (fun e => forall e' c ms, simplify reg st0 u e = OVal (e', c) ms -> folded e e' c ms) args ->
    forall args' c ms,
    simplify_list (simplify reg st0 u) args = OVal (args', c) ms ->
    List.length args' = List.length args /\
    (c = true -> Forall is_const args') /\
    (forall st, s_ctx st = s_ctx st0 ->
       kept ms (eval_list (eval reg st) args) (eval_list (eval reg st) args')).
  Proof.
    induction args as [|a t IH]; intros Hall args' c ms H.
    - cbn in H. inversion H; subst. split; [auto|split; [auto|]]. intros; apply kept_refl.
    - inversion Hall as [|? ? Pa Pt]; subst. cbn [simplify_list] in H.
      apply obind_val in H. destruct H as ([a' ca] & m1 & m2 & E1 & E2 & ->).
      apply obind_val in E2. destruct E2 as ([t' ct] & m3 & m4 & E2 & E3 & ->).
      unfold oret in E3. inversion E3; subst. rewrite app_nil_r.
      destruct (Pa _ _ _ E1) as [Ka Ca].
      destruct (IH Pt _ _ _ E2) as (Lt & Ct & Kt).
      split; [cbn; congruence|]. split.
      + intro Hb. apply andb_true_iff in Hb. destruct Hb. constructor; auto.
      + intros st Hst. cbn [eval_list]. apply kept_bind; auto.
        intros v. destruct (is_valid v); [|apply kept_refl].
        replace m3 with (m3 ++ []) by apply app_nil_r.
        apply kept_bind; auto. intros r. apply kept_refl.
  Qed.

  Lemma simplify_ok : forall e e' c ms,
    simplify reg st0 u e = OVal (e', c) ms -> folded e e' c ms.
  Proof.
    unfold folded. induction e using expr_ind'; intros e' k ms Hs; cbn [simplify] in Hs.
    - eapply fold_node_ok; [|exact Hs]. intros _ st _. reflexivity.
    - eapply fold_node_ok; [|exact Hs]. intros _ st _. reflexivity.
    - eapply fold_node_ok; [|exact Hs]. intros _ st _. reflexivity.
    - inversion Hs; subst. split; [intros; apply kept_refl|discriminate].
    - eapply fold_node_ok; [|exact Hs]. intros _ st _. reflexivity.
    - inversion Hs; subst. split; [intros; apply kept_refl|discriminate].
    - apply obind_val in Hs. destruct Hs as ([a' ca] & m1 & m2 & E1 & E2 & ->).
      destruct (IHe _ _ _ E1) as [Ka Ca].
      apply fold_node_ok in E2.
      2:{ intros Hca st Hst. apply (eval_node_indep reg st st0 u); auto. }
      destruct E2 as [K C]. split; auto.
      intros st Hst. eapply kept_trans; [|apply K; auto].
      cbn [eval]. replace m1 with (m1 ++ []) by apply app_nil_r.
      apply kept_bind; auto. intros; apply kept_refl.
    - apply obind_val in Hs. destruct Hs as ([a' ca] & m1 & mx & E1 & Hs & ->).
      apply obind_val in Hs. destruct Hs as ([b' cb] & m2 & m3 & E2 & E3 & ->).
      destruct (IHe1 _ _ _ E1) as [Ka Ca]. destruct (IHe2 _ _ _ E2) as [Kb Cb].
      apply fold_node_ok in E3.
      2:{ intros Hcc st Hst. apply andb_true_iff in Hcc. destruct Hcc.
          apply (eval_node_indep reg st st0 u); auto. }
      destruct E3 as [K C]. split; auto.
      intros st Hst. rewrite app_assoc. eapply kept_trans; [|apply K; auto].
      cbn [eval]. apply kept_bind; auto. intros x.
      replace m2 with (m2 ++ []) by apply app_nil_r. apply kept_bind; auto. intros; apply kept_refl.
    - apply obind_val in Hs. destruct Hs as ([c' cc] & m1 & mx & E1 & Hs & ->).
      apply obind_val in Hs. destruct Hs as ([a' ca] & m2 & my & E2 & Hs & ->).
      apply obind_val in Hs. destruct Hs as ([b' cb] & m3 & m4 & E3 & E4 & ->).
      destruct (IHe1 _ _ _ E1) as [Kc Cc]. destruct (IHe2 _ _ _ E2) as [Ka Ca].
      destruct (IHe3 _ _ _ E3) as [Kb Cb].
      apply fold_node_ok in E4.
      2:{ intros Hcc st Hst. apply andb_true_iff in Hcc. destruct Hcc as [? Hcc].
          apply andb_true_iff in Hcc. destruct Hcc.
          apply (eval_node_indep reg st st0 u); auto. }
      destruct E4 as [K C]. split; auto.
      intros st Hst.
      replace (m1 ++ m2 ++ m3 ++ m4) with ((m1 ++ (m2 ++ m3)) ++ m4)
        by (rewrite <- !app_assoc; reflexivity).
      eapply kept_trans; [|apply K; auto].
      cbn [eval]. apply kept_bind; auto. intros x.
      destruct (v_eq (c_host (s_ctx st)) x (VInt 0)).
      + eapply kept_mono; [|apply Kb; auto]. apply incl_appr, incl_refl.
      + eapply kept_mono; [|apply Ka; auto]. apply incl_appl, incl_refl.
    - inversion Hs; subst. split; [intros; apply kept_refl|discriminate].
    - destruct (function_safe reg u n) eqn:Es.
      2:{ inversion Hs; subst. split; [intros; apply kept_refl|discriminate]. }
      apply obind_val in Hs. destruct Hs as ([args' ca] & m1 & m2 & E1 & E2 & ->).
      apply simplify_list_ok in E1; auto.
      destruct E1 as (L & Cl & Kl).
      apply fold_node_ok in E2.
      2:{ intros Hca st Hst. apply (eval_node_indep reg st st0 u); auto. }
      destruct E2 as [K C]. split; auto.
      intros st Hst. eapply kept_trans; [|apply K; auto].
      cbn [eval]. unfold call_function. unfold function_safe in Es.
      destruct (reg n) as [fe|] eqn:En; [|apply kept_refl].
      rewrite L.
      destruct (List.length args <? fe_min fe)%nat; [apply kept_refl|].
      destruct (fe_max fe <? List.length args)%nat; [apply kept_refl|].
      destruct (Hreg n fe En) as (f & Ef & _).
      { destruct (fe_safety fe); congruence. }
      rewrite Ef. replace m1 with (m1 ++ []) by apply app_nil_r.
      apply kept_bind; auto. intros r; apply kept_refl.
  Qed.
End Fold.

Lemma fold_preserves : forall arch users u st0 e e' c ms,
  In arch [[]; mips_functions; arm_functions] ->
  let reg := make_registry arch users in
  simplify reg st0 u e = OVal (e', c) ms ->
  (forall st, s_ctx st = s_ctx st0 ->
     result_of (eval reg st e') = result_of (eval reg st e) /\
     incl (messages_of (eval reg st e)) (ms ++ messages_of (eval reg st e'))) /\
  (c = true -> exists v, forall st, eval reg st e' = OVal v []).
Proof.
  intros arch users u st0 e e' c ms Ha reg H.
  destruct (simplify_ok reg st0 u (registry_context_only arch users Ha) e e' c ms H) as [K C].
  split.
  - intros st Hst. specialize (K st Hst).
    destruct (eval reg st e) as [v m| |], (eval reg st e') as [v' m'| |]; cbn in *; try tauto.
    + destruct K as [-> I]. auto.
    + split; auto. intros x [].
    + split; auto. intros x [].
  - intro Hc. destruct (C Hc) as [v ->]. exists v. intro st. apply eval_const.
Qed.
