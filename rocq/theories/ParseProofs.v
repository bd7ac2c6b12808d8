(** Proofs about the expression parser: the recursion bound suffices, every sentence of the grammar
    is parsed to its tree, and (when parenthesised groups are well formed) only such sentences. *)

Require Import ZArith List String Bool Lia.
From Verif Require Import ExprModel ExprProofs ParseModel ParseSpec.
Import ListNotations.

Section P.
  Variable isfun : string -> bool.
  Variables file section : Z.
  Notation parse := (parse isfun file section).
  Notation gram := (gram isfun file section).
  Notation gargs := (gargs isfun file section).

  (** ** Termination *)

  Definition rank (nt : nonterm) : nat :=
    match nt with
    | NPrimary => 1 | NPostfix => 2 | NBin n => 3 + n | NLoop n _ => 3 + n | NExpr => 14
    | NArgs _ _ => 15
    end.
  Definition level_ok (nt : nonterm) : Prop :=
    match nt with NBin n => (n <= 10)%nat | NLoop n _ => (1 <= n <= 10)%nat | _ => True end.

  Definition shrinks (nt : nonterm) (ts rest : list token) : Prop :=
    match nt with
    | NLoop _ _ => (List.length rest <= List.length ts)%nat
    | _ => (List.length rest < List.length ts)%nat
    end.

  Lemma tl_le : forall (l : list token), (List.length (tl l) <= List.length l)%nat.
  Proof. intros [|x l]; cbn; lia. Qed.

  Lemma op_at_nil : forall n, op_at n TInvalid = None.
  Proof. intros n. do 12 (destruct n as [|n]; [reflexivity|]). reflexivity. Qed.

  Lemma op_at_spec : forall n t op,
    op_at n t = Some op <-> t = bin_token op /\ S n = c_prec op.
  Proof.
    intros n t op. split.
    - intros H. do 11 (destruct n as [|n]; [destruct t; cbn in H; try discriminate;
        injection H as <-; auto|]). destruct t; discriminate H.
    - intros [-> H]. destruct op; cbn in H; injection H as ->; reflexivity.
  Qed.

  Lemma parse_total : forall fuel nt ts, level_ok nt ->
    (32 * List.length ts + rank nt <= fuel)%nat ->
    match parse fuel nt ts with
    | POk e rest => shrinks nt ts rest
    | PFail rest => (List.length rest <= List.length ts)%nat
    | PFuel => False
    end.
  Proof.
    induction fuel as [|k IH]; intros nt ts Hlv Hf; [destruct nt; cbn in Hf; lia|].
    destruct nt as [| |f acc|n|n e|]; cbn [rank level_ok] in *.
    - destruct ts as [|[] ts]; cbn [ParseModel.parse shrinks List.length]; try lia.
      specialize (IH NExpr ts I). cbn [List.length rank] in *. specialize (IH ltac:(lia)).
      destruct (parse k NExpr ts) as [e r|r|]; [|pose proof (tl_le r); cbn in IH; lia|contradiction].
      cbn in IH. pose proof (tl_le r). destruct r as [|[] r]; cbn in *; lia.
    - assert (Hp : match parse k NPrimary ts with
              | POk e rest => (List.length rest < List.length ts)%nat
              | PFail rest => (List.length rest <= List.length ts)%nat | PFuel => False end).
      { specialize (IH NPrimary ts I). cbn [rank] in IH. specialize (IH ltac:(lia)).
        destruct (parse k NPrimary ts); assumption. }
      destruct ts as [|[] ts]; try exact Hp.
      destruct ts as [|[] ts]; try exact Hp.
      cbn [ParseModel.parse]. destruct (isfun n); [|exact Hp].
      specialize (IH (NArgs n []) ts I). cbn [List.length rank shrinks] in *.
      specialize (IH ltac:(lia)). destruct (parse k (NArgs n []) ts); cbn in *; lia.
    - assert (Ha : forall ts', (32 * List.length ts' + 14 <= k)%nat ->
                (List.length ts' <= List.length ts)%nat ->
                match match parse k NExpr ts' with
                      | POk e r => parse k (NArgs f (e :: acc)) r
                      | PFail r => PFail r | PFuel => PFuel end with
                | POk e rest => (List.length rest < List.length ts)%nat
                | PFail rest => (List.length rest <= List.length ts)%nat | PFuel => False end).
      { intros ts' H1 H2. pose proof (IH NExpr ts' I H1) as IHe.
        destruct (parse k NExpr ts') as [e r|r|]; cbn in IHe; [|lia|exact IHe].
        pose proof (IH (NArgs f (e :: acc)) r I) as IHa. cbn [rank] in IHa.
        specialize (IHa ltac:(lia)). destruct (parse k (NArgs f (e :: acc)) r); cbn in *; lia. }
      assert (Hc : match match acc with [] => match parse k NExpr ts with
                      | POk e r => parse k (NArgs f (e :: acc)) r
                      | PFail r => PFail r | PFuel => PFuel end
                    | _ => match ts with TComma :: ts' => match parse k NExpr ts' with
                      | POk e r => parse k (NArgs f (e :: acc)) r
                      | PFail r => PFail r | PFuel => PFuel end | _ => PFail (tl ts) end end with
                | POk e rest => (List.length rest < List.length ts)%nat
                | PFail rest => (List.length rest <= List.length ts)%nat | PFuel => False end).
      { destruct acc as [|a acc]; [apply Ha; lia|].
        pose proof (tl_le ts). destruct ts as [|[] ts]; try assumption.
        apply Ha; cbn in *; lia. }
      destruct acc as [|a acc].
      + destruct ts as [|[] ts]; try exact Hc. cbn; lia.
      + destruct ts as [|[] ts]; try exact Hc. cbn; lia.
    - destruct n as [|n].
      + cbn [ParseModel.parse]. pose proof (IH NPostfix ts I) as H1. cbn [rank] in H1.
        specialize (H1 ltac:(lia)). destruct (parse k NPostfix ts) as [e r|r|]; [exact H1| |exact H1].
        pose proof (tl_le r). pose proof (IH NPostfix (tl r) I) as H2. cbn [rank] in H2.
        specialize (H2 ltac:(lia)). destruct (parse k NPostfix (tl r)) as [e r'|r'|]; [|lia|exact H2].
        cbn in H2. destruct (unary_at (peek r) e); cbn; lia.
      + cbn [ParseModel.parse]. pose proof (IH (NBin n) ts) as H1. cbn [rank level_ok] in H1.
        specialize (H1 ltac:(lia) ltac:(lia)).
        destruct (parse k (NBin n) ts) as [e r|r|]; [|exact H1|exact H1]. cbn in H1.
        pose proof (IH (NLoop (S n) e) r) as H2. cbn [rank level_ok] in H2.
        specialize (H2 ltac:(lia) ltac:(lia)).
        destruct (parse k (NLoop (S n) e) r); cbn in *; lia.
    - cbn [ParseModel.parse].
      destruct (op_at n (peek ts)) as [op|] eqn:Ho; [|cbn; lia].
      destruct ts as [|t ts]; [cbn in Ho; rewrite op_at_nil in Ho; discriminate|].
      cbn [tl]. pose proof (IH (NBin (n - 1)) ts) as H1. cbn [rank level_ok List.length] in *.
      specialize (H1 ltac:(lia) ltac:(lia)).
      destruct (parse k (NBin (n - 1)) ts) as [e2 r|r|]; [|lia|exact H1]. cbn in H1.
      pose proof (IH (NLoop n (EBin op e e2)) r) as H2. cbn [rank level_ok] in H2.
      specialize (H2 ltac:(lia) ltac:(lia)).
      destruct (parse k (NLoop n (EBin op e e2)) r); cbn in *; lia.
    - cbn [ParseModel.parse]. pose proof (IH (NBin 10) ts) as H1. cbn [rank level_ok] in H1.
      specialize (H1 ltac:(lia) ltac:(lia)).
      destruct (parse k (NBin 10) ts) as [c r|r|]; [|exact H1|exact H1]. cbn in H1.
      destruct r as [|[] r]; try exact H1.
      cbn [List.length] in H1. pose proof (IH NExpr r I) as H2. cbn [rank] in H2.
      specialize (H2 ltac:(lia)).
      destruct (parse k NExpr r) as [a r'|r'|]; [|lia|exact H2].
      cbn [shrinks] in H2. pose proof (tl_le r').
      destruct r' as [|[] r']; cbn [List.length tl] in *; try lia.
      pose proof (IH NExpr r' I) as H3. cbn [rank] in H3. specialize (H3 ltac:(lia)).
      destruct (parse k NExpr r') as [b r''|r''|]; [|lia|exact H3]. cbn in *; lia.
  Qed.

  (** More fuel does not change a result. *)
  Lemma parse_mono : forall k nt ts r, parse k nt ts = r -> r <> PFuel ->
    forall k', (k <= k')%nat -> parse k' nt ts = r.
  Proof.
    induction k as [|k IH]; intros nt ts r H Hr k' Hk; [cbn in H; congruence|].
    destruct k' as [|k']; [lia|]. assert (Hk' : (k <= k')%nat) by lia. clear Hk.
    assert (E : forall nt ts, parse k nt ts <> PFuel -> parse k' nt ts = parse k nt ts)
      by (intros; eapply IH; eauto).
    revert H. subst r || idtac. intros H. subst r.
    destruct nt as [| |f acc|n|n e|]; cbn [ParseModel.parse] in *.
    - destruct ts as [|[] ts]; try reflexivity.
      rewrite E; [reflexivity|]. intros X. rewrite X in Hr. congruence.
    - destruct ts as [|[] ts]; try (apply E; assumption).
      destruct ts as [|[] ts]; try (apply E; assumption).
      destruct (isfun n); apply E; assumption.
    - assert (A : forall ts',
        match parse k NExpr ts' with POk e r => parse k (NArgs f (e :: acc)) r
                                   | PFail r => PFail r | PFuel => PFuel end <> PFuel ->
        match parse k' NExpr ts' with POk e r => parse k' (NArgs f (e :: acc)) r
                                   | PFail r => PFail r | PFuel => PFuel end =
        match parse k NExpr ts' with POk e r => parse k (NArgs f (e :: acc)) r
                                   | PFail r => PFail r | PFuel => PFuel end).
      { intros ts' X. rewrite (E NExpr ts'); [|intros Y; rewrite Y in X; congruence].
        destruct (parse k NExpr ts'); try reflexivity. apply E. exact X. }
      destruct acc as [|a acc]; destruct ts as [|[] ts]; try reflexivity; apply A; exact Hr.
    - destruct n as [|n].
      + rewrite (E NPostfix ts); [|intros Y; rewrite Y in Hr; congruence].
        destruct (parse k NPostfix ts); try reflexivity.
        rewrite E; [reflexivity|intros Y; rewrite Y in Hr; congruence].
      + rewrite (E (NBin n) ts); [|intros Y; rewrite Y in Hr; congruence].
        destruct (parse k (NBin n) ts); try reflexivity. apply E. exact Hr.
    - destruct (op_at n (peek ts)); [|reflexivity].
      rewrite (E (NBin (n - 1)) (tl ts)); [|intros Y; rewrite Y in Hr; congruence].
      destruct (parse k (NBin (n - 1)) (tl ts)); try reflexivity. apply E. exact Hr.
    - rewrite (E (NBin 10) ts); [|intros Y; rewrite Y in Hr; congruence].
      destruct (parse k (NBin 10) ts) as [c r|r|]; try reflexivity.
      destruct r as [|[] r]; try reflexivity.
      rewrite (E NExpr r); [|intros Y; rewrite Y in Hr; congruence].
      destruct (parse k NExpr r) as [a r'|r'|]; try reflexivity.
      destruct r' as [|[] r']; try reflexivity.
      rewrite (E NExpr r'); [reflexivity|intros Y; rewrite Y in Hr; congruence].
  Qed.

  (** [run nt ts r]: the function [nt] on [ts] returns [r]. *)
  Definition run (nt : nonterm) (ts : list token) (r : pres) : Prop :=
    r <> PFuel /\ exists k, parse k nt ts = r.

  Lemma run_at : forall nt ts r, run nt ts r -> exists k, forall k', (k <= k')%nat -> parse k' nt ts = r.
  Proof. intros nt ts r [Hr [k H]]. exists k. intros k' Hk. eapply parse_mono; eauto. Qed.

  Lemma run_fun : forall nt ts r1 r2, run nt ts r1 -> run nt ts r2 -> r1 = r2.
  Proof.
    intros nt ts r1 r2 H1 H2. apply run_at in H1, H2. destruct H1 as [k1 H1], H2 as [k2 H2].
    rewrite <- (H1 (max k1 k2)) by lia. apply H2. lia.
  Qed.

  Lemma parse_expression_run : forall ts e rest,
    parse_expression isfun file section ts = Some (e, rest) <-> run NExpr ts (POk e rest).
  Proof.
    intros ts e rest. unfold parse_expression. split.
    - intros H. split; [discriminate|]. eexists.
      destruct (ParseModel.parse isfun file section (32 * List.length ts + 32) NExpr ts) eqn:P;
        try discriminate. injection H as -> ->. exact P.
    - intros H. apply run_at in H. destruct H as [k H].
      pose proof (parse_total (32 * List.length ts + 32) NExpr ts I ltac:(cbn [rank]; lia)) as T.
      set (F := (32 * List.length ts + 32)%nat) in *.
      destruct (parse F NExpr ts) as [e' r'|r'|] eqn:P; [| |contradiction].
      + pose proof (parse_mono _ _ _ _ P ltac:(discriminate) (max k F) ltac:(lia)) as Q.
        rewrite (H (max k F)) in Q by lia. injection Q as -> ->. reflexivity.
      + pose proof (parse_mono _ _ _ _ P ltac:(discriminate) (max k F) ltac:(lia)) as Q.
        rewrite (H (max k F)) in Q by lia. discriminate.
  Qed.

  (** One step of each function, on [run]. *)
  Ltac fuel_of H k := apply run_at in H; destruct H as [k H].
  Ltac go := split; [try discriminate|].

  Lemma run_primary_paren : forall r e r', run NExpr r (POk e (TRParen :: r')) ->
    run NPrimary (TLParen :: r) (POk e r').
  Proof. intros r e r' H. fuel_of H k. go. exists (S k). cbn [ParseModel.parse]. rewrite H by lia. reflexivity. Qed.

  Lemma run_postfix_primary : forall ts r, run NPrimary ts r ->
    (forall f ts', ts = TIdent f :: TLParen :: ts' -> isfun f = false) -> run NPostfix ts r.
  Proof.
    intros ts r H Hn. pose proof (proj1 H) as Hr. fuel_of H k. go; [exact Hr|]. exists (S k).
    cbn [ParseModel.parse].
    destruct ts as [|[] ts]; try (apply H; lia).
    destruct ts as [|[] ts]; try (apply H; lia).
    rewrite (Hn n ts eq_refl). apply H; lia.
  Qed.

  Lemma run_postfix_call : forall f ts r, isfun f = true -> run (NArgs f []) ts r ->
    run NPostfix (TIdent f :: TLParen :: ts) r.
  Proof.
    intros f ts r Hf H. pose proof (proj1 H) as Hr. fuel_of H k. go; [exact Hr|]. exists (S k).
    cbn [ParseModel.parse]. rewrite Hf. apply H; lia.
  Qed.

  Lemma run_args_end : forall f acc r, run (NArgs f acc) (TRParen :: r) (POk (ECall f (rev acc)) r).
  Proof. intros. go. exists 1%nat. reflexivity. Qed.

  Lemma run_args_first : forall f ts e r res, peek ts <> TRParen ->
    run NExpr ts (POk e r) -> run (NArgs f [e]) r res -> run (NArgs f []) ts res.
  Proof.
    intros f ts e r res Hp H1 H2. pose proof (proj1 H2) as Hr. fuel_of H1 k1. fuel_of H2 k2.
    go; [exact Hr|]. exists (S (max k1 k2)). cbn [ParseModel.parse].
    destruct ts as [|[] ts]; try (rewrite H1 by lia; apply H2; lia). now contradiction Hp.
  Qed.

  Lemma run_args_next : forall f a acc ts e r res,
    run NExpr ts (POk e r) -> run (NArgs f (e :: a :: acc)) r res ->
    run (NArgs f (a :: acc)) (TComma :: ts) res.
  Proof.
    intros f a acc ts e r res H1 H2. pose proof (proj1 H2) as Hr. fuel_of H1 k1. fuel_of H2 k2.
    go; [exact Hr|]. exists (S (max k1 k2)). cbn [ParseModel.parse tl].
    rewrite H1 by lia. apply H2; lia.
  Qed.

  Lemma run_unary_postfix : forall ts e r, run NPostfix ts (POk e r) -> run (NBin 0) ts (POk e r).
  Proof. intros ts e r H. fuel_of H k. go. exists (S k). cbn [ParseModel.parse]. rewrite H by lia. reflexivity. Qed.

  Lemma run_unary_op : forall t ts e e' r, run NPostfix (t :: ts) (PFail (t :: ts)) ->
    run NPostfix ts (POk e r) -> unary_at t e = Some e' -> run (NBin 0) (t :: ts) (POk e' r).
  Proof.
    intros t ts e e' r H1 H2 Hu. fuel_of H1 k1. fuel_of H2 k2. go. exists (S (max k1 k2)).
    cbn [ParseModel.parse]. rewrite H1 by lia. cbn [tl peek]. rewrite H2 by lia. rewrite Hu. reflexivity.
  Qed.

  Lemma run_bin : forall n ts e r res, run (NBin n) ts (POk e r) -> run (NLoop (S n) e) r res ->
    run (NBin (S n)) ts res.
  Proof.
    intros n ts e r res H1 H2. pose proof (proj1 H2) as Hr. fuel_of H1 k1. fuel_of H2 k2.
    go; [exact Hr|]. exists (S (max k1 k2)). cbn [ParseModel.parse]. rewrite H1 by lia. apply H2; lia.
  Qed.

  Lemma run_loop_end : forall n e ts, op_at n (peek ts) = None -> run (NLoop n e) ts (POk e ts).
  Proof. intros n e ts H. go. exists 1%nat. cbn [ParseModel.parse]. rewrite H. reflexivity. Qed.

  Lemma run_loop_op : forall n e op t ts e2 r res, op_at n t = Some op ->
    run (NBin (n - 1)) ts (POk e2 r) -> run (NLoop n (EBin op e e2)) r res ->
    run (NLoop n e) (t :: ts) res.
  Proof.
    intros n e op t ts e2 r res Ho H1 H2. pose proof (proj1 H2) as Hr. fuel_of H1 k1. fuel_of H2 k2.
    go; [exact Hr|]. exists (S (max k1 k2)). cbn [ParseModel.parse peek tl]. rewrite Ho, H1 by lia.
    apply H2; lia.
  Qed.

  Lemma run_expr_plain : forall ts e r, run (NBin 10) ts (POk e r) -> peek r <> TQuestion ->
    run NExpr ts (POk e r).
  Proof.
    intros ts e r H Hq. fuel_of H k. go. exists (S k). cbn [ParseModel.parse]. rewrite H by lia.
    destruct r as [|[] r]; try reflexivity. now contradiction Hq.
  Qed.

  Lemma run_expr_cond : forall ts c r1 a r2 b r3,
    run (NBin 10) ts (POk c (TQuestion :: r1)) -> run NExpr r1 (POk a (TColon :: r2)) ->
    run NExpr r2 (POk b r3) -> run NExpr ts (POk (ECond c a b) r3).
  Proof.
    intros ts c r1 a r2 b r3 H1 H2 H3. fuel_of H1 k1. fuel_of H2 k2. fuel_of H3 k3. go.
    exists (S (max k1 (max k2 k3))). cbn [ParseModel.parse]. rewrite H1, H2, H3 by lia. reflexivity.
  Qed.

  (** ** Completeness *)

  (** What the continuation may start with, per precedence. *)
  Definition stops (n : nat) (rest : list token) : Prop :=
    peek rest <> TLParen /\
    (forall m, (1 <= m < n - 1)%nat -> op_at m (peek rest) = None) /\
    (n = 12%nat -> peek rest <> TQuestion).

  Definition parsed (n : nat) (ts : list token) (e : expr) : Prop :=
    forall rest, stops n rest ->
    match n with
    | 0 => run NPostfix (ts ++ rest) (POk e rest)
    | 1 => run (NBin 0) (ts ++ rest) (POk e rest)
    | 12 => run NExpr (ts ++ rest) (POk e rest)
    | S m => forall res, run (NLoop m e) rest res -> run (NBin m) (ts ++ rest) res
    end.

  Definition starter (t : token) : bool :=
    match t with
    | TInt _ | TFloat _ | TStr _ | TIdent _ | TLParen | TPlus | TMinus | TTilde | TExclamation
    | TDegree => true
    | _ => false
    end.

  Scheme gram_mind := Induction for ParseSpec.gram Sort Prop
    with gargs_mind := Induction for ParseSpec.gargs Sort Prop.
  Combined Scheme gram_gargs_ind from gram_mind, gargs_mind.

  Lemma gram_head : (forall n ts e, gram n ts e -> starter (peek ts) = true) /\
                    (forall ts es, gargs ts es -> starter (peek ts) = true).
  Proof.
    assert (A : forall l r, starter (peek l) = true -> starter (peek (l ++ r)) = true)
      by (intros [|x l] r H; [discriminate H|exact H]).
    apply gram_gargs_ind; intros; cbn [peek starter]; auto.
    destruct op; reflexivity.
  Qed.

  Lemma stops_paren : forall n r, stops n (TRParen :: r).
  Proof.
    intros n r. split; [discriminate|]. split; [|discriminate].
    intros m _. cbn. do 11 (destruct m as [|m]; [reflexivity|]). reflexivity.
  Qed.

  Lemma bin_levels : forall op, exists m, c_prec op = S (S m) /\ (m <= 9)%nat.
  Proof. intros op. destruct op; cbn; eexists; split; try reflexivity; lia. Qed.

  Lemma op_at_bin : forall op m, (m < c_prec op - 1)%nat -> op_at m (bin_token op) = None.
  Proof.
    intros op m H. destruct (op_at m (bin_token op)) as [op'|] eqn:E; [|reflexivity].
    apply op_at_spec in E. destruct E as [E1 E2].
    assert (op = op') by (destruct op, op'; cbn in E1; congruence). subst op'. lia.
  Qed.

  Lemma bin_token_plain : forall op, bin_token op <> TLParen /\ bin_token op <> TQuestion.
  Proof. intros []; split; discriminate. Qed.

  Lemma stops_le : forall n n' r, (n' <= n)%nat -> (n' < 12)%nat -> stops n r -> stops n' r.
  Proof. intros n n' r Hn Hn' [H1 [H2 H3]]. split; [exact H1|]. split; [|lia]. intros m Hm. apply H2. lia. Qed.

  Lemma complete :
    (forall n ts e, gram n ts e -> (n <= 12)%nat -> parsed n ts e) /\
    (forall ts es, gargs ts es ->
       forall f acc rest,
         (acc = [] -> run (NArgs f []) (ts ++ TRParen :: rest) (POk (ECall f es) rest)) /\
         (acc <> [] -> run (NArgs f acc) (TComma :: ts ++ TRParen :: rest)
                          (POk (ECall f (rev acc ++ es)) rest))).
  Proof.
    apply gram_gargs_ind.
    - intros z _ rest _. apply run_postfix_primary; [|discriminate]. go. exists 1%nat. reflexivity.
    - intros z _ rest _. apply run_postfix_primary; [|discriminate]. go. exists 1%nat. reflexivity.
    - intros z _ rest _. apply run_postfix_primary; [|discriminate]. go. exists 1%nat. reflexivity.
    - intros _ rest [Hs _]. cbn [app]. apply run_postfix_primary.
      + go. exists 1%nat. reflexivity.
      + intros f ts' E. injection E as _ ->. now contradiction Hs.
    - intros n Hn _ rest [Hs _]. cbn [app]. apply run_postfix_primary.
      + go. exists 1%nat. cbn. destruct (String.eqb_spec n "."); [contradiction|reflexivity].
      + intros f ts' E. injection E as _ ->. now contradiction Hs.
    - intros ts e Hg IH _ rest _. cbn [app]. rewrite <- app_assoc. cbn [app].
      apply run_postfix_primary; [|discriminate].
      apply run_primary_paren. apply (IH (le_n 12) (TRParen :: rest)). apply stops_paren.
    - intros f Hf _ rest _. cbn [app]. apply run_postfix_call; [exact Hf|]. apply run_args_end.
    - intros f ts es Hf Hg IH _ rest _. cbn [app]. rewrite <- app_assoc. cbn [app].
      apply run_postfix_call; [exact Hf|]. apply (IH f [] rest). reflexivity.
    - intros ts e Hg IH _ rest Hs. cbn [app].
      apply run_unary_op with (e := e); [|apply (IH ltac:(lia)); exact (stops_le 1 0 _ ltac:(lia) ltac:(lia) Hs)|reflexivity].
      apply run_postfix_primary; [|discriminate]. go. exists 1%nat. reflexivity.
    - intros op ts e Hg IH _ rest Hs. cbn [app].
      apply run_unary_op with (e := e); [|apply (IH ltac:(lia)); exact (stops_le 1 0 _ ltac:(lia) ltac:(lia) Hs)|destruct op; reflexivity].
      apply run_postfix_primary; [|destruct op; discriminate]. go. exists 1%nat. destruct op; reflexivity.
    - intros ts e Hg IH _ rest Hs. cbn [app].
      apply run_unary_op with (e := e); [|apply (IH ltac:(lia)); exact (stops_le 1 0 _ ltac:(lia) ltac:(lia) Hs)|reflexivity].
      apply run_postfix_primary; [|discriminate]. go. exists 1%nat. reflexivity.
    - (* binary *)
      intros op ts1 ts2 a b _ IHa _ IHb _. destruct (bin_levels op) as [m [Em Hm]].
      assert (Ho : op_at (S m) (bin_token op) = Some op) by (apply op_at_spec; auto).
      specialize (IHa ltac:(lia)). specialize (IHb ltac:(lia)).
      assert (Sa : forall ts, stops (S (S m)) (bin_token op :: ts)).
      { intros ts. split; [apply bin_token_plain|]. split; [|lia].
        intros i Hi. apply op_at_bin. lia. }
      rewrite Em in *. replace (S (S m) - 1)%nat with (S m) in IHb by lia.
      assert (M : forall rest, stops (S (S m)) rest -> forall res, run (NLoop (S m) (EBin op a b)) rest res ->
                  run (NBin (S m)) ((ts1 ++ bin_token op :: ts2) ++ rest) res).
      { intros rest Hs res Hl. rewrite <- app_assoc. cbn [app].
        specialize (IHa (bin_token op :: ts2 ++ rest) (Sa _)).
        assert (Rb : run (NBin m) (ts2 ++ rest) (POk b rest)).
        { assert (Sb : stops (S m) rest) by (apply (stops_le (S (S m))); [lia|lia|exact Hs]).
          specialize (IHb rest Sb). destruct m as [|m]; [exact IHb|].
          do 10 (destruct m as [|m]; [try lia; apply IHb; apply run_loop_end; apply (proj1 (proj2 Hs)); lia|]). lia. }
        assert (Rl : run (NLoop (S m) a) (bin_token op :: ts2 ++ rest) res).
        { eapply run_loop_op; [exact Ho| |exact Hl]. replace (S m - 1)%nat with m by lia. exact Rb. }
        do 10 (destruct m as [|m]; [apply IHa; exact Rl|]). lia. }
      intros rest Hs. do 10 (destruct m as [|m]; [apply M; exact Hs|]). lia.
    - (* conditional *)
      intros tc ta tb c a b _ IHc _ IHa _ IHb _ rest Hs. cbn [parsed] in *.
      rewrite <- app_assoc. cbn [app]. rewrite <- app_assoc. cbn [app].
      eapply run_expr_cond; [| |apply (IHb (le_n 12)); exact Hs].
      + assert (Sq : forall ts, stops 11 (TQuestion :: ts)).
        { intros ts. split; [discriminate|]. split; [|lia]. intros i _. cbn.
          do 11 (destruct i as [|i]; [reflexivity|]). reflexivity. }
        apply (IHc ltac:(lia) (TQuestion :: ta ++ TColon :: tb ++ rest) (Sq _)).
        apply run_loop_end. reflexivity.
      + apply (IHa (le_n 12) (TColon :: tb ++ rest)).
        split; [discriminate|]. split; [|discriminate].
        intros i _. cbn. do 11 (destruct i as [|i]; [reflexivity|]). reflexivity.
    - (* g_up *)
      intros n ts e Hn Hg IH _ rest Hs. specialize (IH ltac:(lia) rest).
      assert (Sn : stops n rest) by (apply (stops_le (S n)); [lia|lia|exact Hs]).
      specialize (IH Sn).
      destruct n as [|n]; [apply run_unary_postfix; exact IH|].
      destruct n as [|n]; [intros res Hl; eapply run_bin; [exact IH|exact Hl]|].
      assert (L : run (NLoop (S n) e) rest (POk e rest))
        by (apply run_loop_end; destruct Hs as [_ [Hs _]]; apply Hs; lia).
      do 9 (destruct n as [|n]; [intros res Hl; eapply run_bin; [apply IH; exact L|exact Hl]|]).
      destruct n as [|n]; [|lia].
      apply run_expr_plain; [apply IH; exact L|]. apply Hs. reflexivity.
    - (* one argument *)
      intros ts e Hg IH f acc rest. specialize (IH (le_n 12) (TRParen :: rest) (stops_paren 12 rest)). cbn in IH.
      split.
      + intros _. eapply run_args_first; [|exact IH|apply (run_args_end f [e])].
        destruct gram_head as [Hh _]. specialize (Hh _ _ _ Hg).
        destruct ts as [|t ts]; [discriminate|]. cbn in *. intros E. rewrite E in Hh. discriminate.
      + intros Ha. destruct acc as [|x acc]; [contradiction|].
        eapply run_args_next; [exact IH|]. apply (run_args_end f (e :: x :: acc)).
    - (* more arguments *)
      intros ts e ts' es Hg IH Hgs IHs f acc rest.
      assert (St : forall r, stops 12 (TComma :: r)).
      { intros r. split; [discriminate|]. split; [|discriminate].
        intros i _. cbn. do 11 (destruct i as [|i]; [reflexivity|]). reflexivity. }
      assert (IHe : run NExpr (ts ++ TComma :: ts' ++ TRParen :: rest)
                      (POk e (TComma :: ts' ++ TRParen :: rest)))
        by (apply (IH (le_n 12)); apply St).
      rewrite <- app_assoc. cbn [app]. split.
      + intros _. eapply run_args_first; [|exact IHe|].
        * destruct gram_head as [Hh _]. specialize (Hh _ _ _ Hg).
          destruct ts as [|t ts]; [discriminate|]. cbn in *. intros E. rewrite E in Hh. discriminate.
        * destruct (IHs f [e] rest) as [_ H]. apply H. discriminate.
      + intros Ha. destruct acc as [|x acc]; [contradiction|].
        eapply run_args_next; [exact IHe|].
        destruct (IHs f (e :: x :: acc) rest) as [_ H]. cbn [rev] in *.
        rewrite <- app_assoc in H. apply H. discriminate.
  Qed.

  Lemma cannot_extend_stops : forall rest, cannot_extend rest -> stops 12 rest.
  Proof.
    intros [|t rest] H; cbn in H; unfold stops; cbn [peek].
    - split; [discriminate|]. split; [|discriminate]. intros m _. apply op_at_nil.
    - split; [intros ->; discriminate H|]. split; [|intros _ ->; discriminate H].
      intros m _. destruct (op_at m t) eqn:E; [|reflexivity]. apply op_at_spec in E.
      destruct E as [-> _]. destruct b; discriminate H.
  Qed.

  Theorem grammar_parsed : forall ts e rest, gram 12 ts e -> cannot_extend rest ->
    parse_expression isfun file section (ts ++ rest) = Some (e, rest).
  Proof.
    intros ts e rest Hg Hr. apply parse_expression_run. destruct complete as [C _].
    apply (C 12%nat ts e Hg (le_n 12)). apply cannot_extend_stops. exact Hr.
  Qed.

  Lemma gram_up : forall n m ts e, (n <= m <= 12)%nat -> gram n ts e -> gram m ts e.
  Proof.
    intros n m ts e [H1 H2] Hg. induction H1; [exact Hg|]. apply g_up; [lia|]. apply IHle. lia.
  Qed.

  Lemma c_prec_le : forall op, (2 <= c_prec op <= 11)%nat.
  Proof. intros []; cbn; lia. Qed.

  Lemma gargs_of : forall l, l <> [] -> Forall (fun x => gram 12 (show 12 x) x) l ->
    gargs (comma_separated (map (show 12) l)) l.
  Proof.
    intros l Hne H. induction H as [|x l Hx Hl IH]; [contradiction|].
    destruct l as [|y l].
    - cbn. rewrite app_nil_r. apply ga_one. exact Hx.
    - cbn. cbn in IH. apply ga_cons; [exact Hx|]. apply IH. discriminate.
  Qed.

  Lemma show_gram : forall e, writable isfun file section e ->
    forall n, (n <= 12)%nat -> gram n (show n e) e.
  Proof.
    induction e as [|z|fl|id fi se|st| |op a IHa|op a b IHa IHb|c a b IHc IHa IHb|a IHa|f args IHargs] using expr_ind';
      intros Hw n Hn; cbn [writable] in Hw.
    - contradiction.
    - apply (gram_up 0); [lia|]. constructor.
    - apply (gram_up 0); [lia|]. constructor.
    - destruct Hw as [H1 [-> ->]]. apply (gram_up 0); [lia|]. now constructor.
    - apply (gram_up 0); [lia|]. constructor.
    - apply (gram_up 0); [lia|]. constructor.
    - assert (G : gram 1 (un_token op :: show 0 a) (EUn op a)) by (constructor; apply IHa; [exact Hw|lia]).
      cbn [show prec_of]. destruct (Nat.ltb_spec n 1); cbn [wrap_if].
      + replace n with 0%nat by lia. apply g_paren. apply (gram_up 1); [lia|exact G].
      + apply (gram_up 1); [lia|exact G].
    - destruct Hw as [H1 H2]. pose proof (c_prec_le op).
      assert (G : gram (c_prec op) (show (c_prec op) a ++ bin_token op :: show (c_prec op - 1) b) (EBin op a b)).
      { constructor; [apply IHa; [exact H1|lia]|apply IHb; [exact H2|lia]]. }
      cbn [show prec_of]. destruct (Nat.ltb_spec n (c_prec op)); cbn [wrap_if].
      + apply (gram_up 0); [lia|]. apply g_paren. apply (gram_up (c_prec op)); [lia|exact G].
      + apply (gram_up (c_prec op)); [lia|exact G].
    - destruct Hw as [H1 [H2 H3]].
      assert (G : gram 12 (show 11 c ++ TQuestion :: show 12 a ++ TColon :: show 12 b) (ECond c a b)).
      { constructor; [apply IHc|apply IHa|apply IHb]; auto; lia. }
      cbn [show prec_of]. destruct (Nat.ltb_spec n 12); cbn [wrap_if].
      + apply (gram_up 0); [lia|]. apply g_paren. exact G.
      + replace n with 12%nat by lia. exact G.
    - assert (G : gram 1 (TDegree :: show 0 a) (EToString a)) by (constructor; apply IHa; [exact Hw|lia]).
      cbn [show prec_of]. destruct (Nat.ltb_spec n 1); cbn [wrap_if].
      + replace n with 0%nat by lia. apply g_paren. apply (gram_up 1); [lia|exact G].
      + apply (gram_up 1); [lia|exact G].
    - destruct Hw as [Hf Hw]. cbn [show prec_of wrap_if]. rewrite (proj2 (Nat.ltb_ge n 0)) by lia.
      cbn [wrap_if]. apply (gram_up 0); [lia|].
      assert (F : Forall (fun x => gram 12 (show 12 x) x) args).
      { induction IHargs as [|x l Hx Hl IHl]; [constructor|]. cbn in Hw. destruct Hw as [W1 W2].
        constructor; [apply Hx; [exact W1|lia]|]. apply IHl. exact W2. }
      destruct args as [|x l]; [apply g_call0; exact Hf|].
      apply g_call; [exact Hf|]. apply gargs_of; [discriminate|exact F].
  Qed.

  (** ** Soundness when groups are well formed *)

  Notation ok := (groups_ok isfun file section).

  Lemma ok_prev : forall p ts, peek ts <> TLParen -> ok p ts -> ok false ts.
  Proof.
    intros p [|t ts] H Ho; cbn in *; [exact I|]. destruct Ho as [_ Ho]. split; [|exact Ho].
    intros ->. now contradiction H.
  Qed.

  (** Within well formed groups an expression at the start of [c ++ TRParen :: r'] is [c]. *)
  Lemma group_runs : forall r, group isfun file section false r ->
    exists c e r', r = c ++ TRParen :: r' /\ gram 12 c e /\ run NExpr r (POk e (TRParen :: r')).
  Proof.
    intros r [c [r' [-> [e Hg]]]]. exists c, e, r'. split; [reflexivity|]. split; [exact Hg|].
    destruct complete as [C _]. apply (C 12%nat c e Hg (le_n 12)). apply stops_paren.
  Qed.

  Lemma call_runs : forall f r, group isfun file section true r ->
    exists c es r', r = c ++ TRParen :: r' /\ (c = [] /\ es = [] \/ gargs c es) /\
      run (NArgs f []) r (POk (ECall f es) r').
  Proof.
    intros f r [c [r' [-> [->|[es Hg]]]]].
    - exists [], [], r'. split; [reflexivity|]. split; [auto|]. apply run_args_end.
    - exists c, es, r'. split; [reflexivity|]. split; [auto|].
      destruct complete as [_ C]. apply (C c es Hg f [] r'). reflexivity.
  Qed.

  Lemma run_of : forall k nt ts r, parse k nt ts = r -> r <> PFuel -> run nt ts r.
  Proof. intros. split; [assumption|]. eauto. Qed.

  Lemma ok_app : forall c p r, ok p (c ++ TRParen :: r) -> ok false r.
  Proof.
    induction c as [|t c IH]; intros p r H; cbn in H.
    - destruct H as [_ [_ H]] || destruct H as [_ H]. exact H.
    - destruct H as [_ H]. eapply IH. exact H.
  Qed.

  Definition sound_at (nt : nonterm) (ts : list token) (e : expr) (rest : list token) : Prop :=
    ok false rest /\
    match nt with
    | NPrimary | NPostfix => exists c, ts = c ++ rest /\ gram 0 c e
    | NBin n => exists c, ts = c ++ rest /\ gram (S n) c e
    | NLoop n e1 => forall c0, gram (S n) c0 e1 -> exists c, ts = c ++ rest /\ gram (S n) (c0 ++ c) e
    | NExpr => exists c, ts = c ++ rest /\ gram 12 c e
    | NArgs _ _ => True
    end.

  Lemma sound : forall k nt ts e rest, level_ok nt -> ok false ts ->
    match nt with NPrimary => forall f ts', ts = TIdent f :: TLParen :: ts' -> isfun f = false
                | NArgs _ _ => False | _ => True end ->
    (parse k nt ts = POk e rest -> sound_at nt ts e rest) /\
    (match nt with NPrimary | NPostfix => forall r, parse k nt ts = PFail r -> r = ts /\
        (forall f, peek ts <> TIdent f) | _ => True end).
  Proof.
    induction k as [|k IH]; intros nt ts e rest Hlv Ho Hnc.
    { split; [discriminate|destruct nt; try exact I; discriminate]. }
    destruct nt as [| |f acc|n|n e1|]; cbn [level_ok] in Hlv.
    - (* primary *)
      destruct ts as [|[] ts]; cbn [ParseModel.parse]; unfold sound_at;
        try (split; [discriminate|]; intros r H; injection H as <-; split; [reflexivity|intros; discriminate]).
      + split; [|discriminate]. intros H. injection H as <- <-. split.
        * cbn in Ho. destruct Ho as [_ Ho]. destruct ts as [|[] ts]; try (eapply ok_prev; [|exact Ho]; discriminate).
          rewrite (Hnc n ts eq_refl) in Ho. exact Ho.
        * exists [TIdent n]. split; [reflexivity|].
          destruct (String.eqb_spec n "."); [subst; constructor|constructor; assumption].
      + split; [|discriminate]. intros H. injection H as <- <-. split; [apply Ho|].
        exists [TInt z]. split; [reflexivity|constructor].
      + split; [|discriminate]. intros H. injection H as <- <-. split; [apply Ho|].
        exists [TStr s]. split; [reflexivity|constructor].
      + split; [|discriminate]. intros H. injection H as <- <-. split; [apply Ho|].
        exists [TFloat f]. split; [reflexivity|constructor].
      + cbn in Ho. destruct Ho as [Hgr Ho]. specialize (Hgr eq_refl).
        destruct (group_runs ts Hgr) as [c [e0 [r' [-> [Hg Hrun]]]]].
        destruct (parse k NExpr (c ++ TRParen :: r')) as [e' r''|r''|] eqn:P.
        * pose proof (run_fun _ _ _ _ (run_of _ _ _ _ P ltac:(discriminate)) Hrun) as E.
          injection E as -> ->. split; [|discriminate]. intros H. injection H as <- <-. split.
          { eapply ok_app. exact Ho. }
          exists (TLParen :: c ++ [TRParen]). split; [cbn; rewrite <- app_assoc; reflexivity|].
          constructor. exact Hg.
        * pose proof (run_fun _ _ _ _ (run_of _ _ _ _ P ltac:(discriminate)) Hrun) as E. discriminate.
        * split; discriminate.
    - (* postfix *)
      assert (Hp : (forall f ts', ts = TIdent f :: TLParen :: ts' -> isfun f = false) ->
                   (parse k NPrimary ts = POk e rest -> sound_at NPostfix ts e rest) /\
                   (forall r, parse k NPrimary ts = PFail r -> r = ts /\ (forall f, peek ts <> TIdent f))).
      { intros Hn. apply (IH NPrimary ts e rest I Ho Hn). }
      destruct ts as [|[] ts]; try (apply Hp; discriminate).
      destruct ts as [|[] ts]; try (apply Hp; discriminate).
      cbn [ParseModel.parse]. destruct (isfun n) eqn:Hf.
      2:{ apply Hp. intros f ts' E. injection E as <- _. exact Hf. }
      cbn in Ho. rewrite Hf in Ho. destruct Ho as [_ [Hgr Ho]]. specialize (Hgr eq_refl).
      destruct (call_runs n ts Hgr) as [c [es [r' [-> [Hg Hrun]]]]].
      destruct (parse k (NArgs n []) (c ++ TRParen :: r')) as [e' r''|r''|] eqn:P.
      + pose proof (run_fun _ _ _ _ (run_of _ _ _ _ P ltac:(discriminate)) Hrun) as E.
        injection E as -> ->. split; [|discriminate]. intros H. injection H as <- <-.
        split; [eapply ok_app; exact Ho|].
        exists (TIdent n :: TLParen :: c ++ [TRParen]). split; [cbn; rewrite <- app_assoc; reflexivity|].
        destruct Hg as [[-> ->]|Hg]; [apply g_call0; exact Hf|apply g_call; assumption].
      + pose proof (run_fun _ _ _ _ (run_of _ _ _ _ P ltac:(discriminate)) Hrun) as E. discriminate.
      + split; discriminate.
    - contradiction.
    - (* unary and binary levels *)
      split; [|exact I]. destruct n as [|n]; cbn [ParseModel.parse].
      + destruct (parse k NPostfix ts) as [e' r|r|] eqn:P; [| |discriminate].
        * intros H. injection H as <- <-.
          destruct (IH NPostfix ts e' r I Ho I) as [Sd _]. destruct (Sd P) as [S1 [c [S2 S3]]].
          split; [exact S1|]. exists c. split; [exact S2|]. apply g_up; [lia|exact S3].
        * destruct (IH NPostfix ts EInvalid [] I Ho I) as [_ F]. destruct (F r P) as [-> Fi].
          destruct (parse k NPostfix (tl ts)) as [e' r'|r'|] eqn:P2; [|discriminate|discriminate].
          destruct (unary_at (peek ts) e') as [e''|] eqn:U; [|discriminate].
          intros H. injection H as <- <-.
          destruct ts as [|t ts]; [discriminate U|]. cbn [tl peek] in *.
          assert (Ho' : ok false ts).
          { cbn in Ho. destruct Ho as [_ Ho]. destruct t; try exact Ho. now contradiction (Fi n). }
          destruct (IH NPostfix ts e' r' I Ho' I) as [Sd _]. destruct (Sd P2) as [S1 [c [S2 S3]]].
          split; [exact S1|]. exists (t :: c). split; [rewrite S2; reflexivity|].
          destruct t; try discriminate U; injection U as <-.
          -- apply g_plus. exact S3.
          -- apply (g_un _ _ _ UNeg). exact S3.
          -- apply (g_un _ _ _ UBitNot). exact S3.
          -- apply (g_un _ _ _ ULogNot). exact S3.
          -- apply g_tostring. exact S3.
      + destruct (parse k (NBin n) ts) as [e' r|r|] eqn:P; [|discriminate|discriminate].
        intros H. destruct (IH (NBin n) ts e' r ltac:(cbn; lia) Ho I) as [Sd _].
        destruct (Sd P) as [S1 [c [-> S3]]].
        destruct (IH (NLoop (S n) e') r e rest ltac:(cbn; lia) S1 I) as [L _].
        destruct (L H) as [L1 L2]. split; [exact L1|].
        destruct (L2 c) as [c' [-> L3]]; [apply g_up; [lia|exact S3]|].
        exists (c ++ c'). split; [rewrite app_assoc; reflexivity|exact L3].
    - (* loop *)
      split; [|exact I]. cbn [ParseModel.parse].
      destruct (op_at n (peek ts)) as [op|] eqn:Eo.
      2:{ intros H. injection H as <- <-. split; [exact Ho|]. intros c0 H0. exists [].
          split; [reflexivity|]. rewrite app_nil_r. exact H0. }
      destruct ts as [|t ts]; [cbn in Eo; rewrite op_at_nil in Eo; discriminate|]. cbn [peek tl] in *.
      apply op_at_spec in Eo. destruct Eo as [-> En].
      assert (Ho' : ok false ts).
      { cbn in Ho. destruct Ho as [_ Ho]. destruct op; exact Ho. }
      destruct (parse k (NBin (n - 1)) ts) as [e2 r|r|] eqn:P; [|discriminate|discriminate].
      intros H. destruct (IH (NBin (n - 1)) ts e2 r ltac:(cbn; lia) Ho' I) as [Sd _].
      destruct (Sd P) as [S1 [c [-> S3]]].
      destruct (IH (NLoop n (EBin op e1 e2)) r e rest ltac:(cbn; lia) S1 I) as [L _].
      destruct (L H) as [L1 L2]. split; [exact L1|].
      intros c0 H0. destruct (L2 (c0 ++ bin_token op :: c)) as [c' [-> L3]].
      { rewrite En. apply g_bin; [rewrite <- En; exact H0|].
        replace (c_prec op - 1)%nat with (S (n - 1)) by lia. exact S3. }
      exists (bin_token op :: c ++ c'). split; [cbn; rewrite <- app_assoc; reflexivity|].
      rewrite <- app_assoc in L3. exact L3.
    - (* expression *)
      split; [|exact I]. cbn [ParseModel.parse].
      destruct (parse k (NBin 10) ts) as [c r|r|] eqn:P; [|discriminate|discriminate].
      destruct (IH (NBin 10) ts c r ltac:(cbn; lia) Ho I) as [Sd _].
      destruct (Sd P) as [S1 [tc [-> S3]]].
      assert (Hplain : POk c r = POk e rest -> sound_at NExpr (tc ++ r) e rest).
      { intros H. injection H as <- <-. split; [exact S1|]. exists tc. split; [reflexivity|].
        apply g_up; [lia|exact S3]. }
      destruct r as [|[] r]; try exact Hplain. clear Hplain.
      cbn in S1. destruct S1 as [_ S1].
      destruct (parse k NExpr r) as [a r'|r'|] eqn:P2; [|discriminate|discriminate].
      destruct (IH NExpr r a r' I S1 I) as [A _]. destruct (A P2) as [A1 [ta [-> A3]]].
      destruct r' as [|[] r']; try discriminate.
      cbn in A1. destruct A1 as [_ A1].
      destruct (parse k NExpr r') as [b r''|r''|] eqn:P3; [|discriminate|discriminate].
      intros H. injection H as <- <-.
      destruct (IH NExpr r' b r'' I A1 I) as [B _]. destruct (B P3) as [B1 [tb [-> B3]]].
      split; [exact B1|]. exists (tc ++ TQuestion :: ta ++ TColon :: tb).
      split; [rewrite <- app_assoc; cbn; rewrite <- app_assoc; reflexivity|].
      apply g_cond; assumption.
  Qed.

  Theorem parsed_grammatical : forall ts e rest, ok false ts ->
    parse_expression isfun file section ts = Some (e, rest) ->
    exists c, ts = c ++ rest /\ gram 12 c e.
  Proof.
    intros ts e rest Ho H. apply parse_expression_run in H. destruct H as [_ [k H]].
    destruct (sound k NExpr ts e rest I Ho I) as [Sd _]. apply (Sd H).
  Qed.

  (** ** What is accepted in general *)

  Notation reduces := (reduces isfun file section).
  Lemma reduces_suffix : forall a c r, reduces a c r -> exists j, a = j ++ r.
  Proof.
    intros a c r H. induction H as [r|t ts c r H IH|j op ts c r U G H IH|f j op ts c r F U G H IH].
    - exists []. reflexivity.
    - destruct IH as [j ->]. exists (t :: j). reflexivity.
    - destruct IH as [j' ->]. exists (TLParen :: j ++ op :: j'). cbn. rewrite <- app_assoc. reflexivity.
    - destruct IH as [j' ->]. exists (TIdent f :: TLParen :: j ++ op :: j'). cbn. rewrite <- app_assoc. reflexivity.
  Qed.
  Lemma reduces_app : forall a c b c' r, reduces a c b -> reduces b c' r -> reduces a (c ++ c') r.
  Proof.
    intros a c b c' r H H'. induction H as [r0|t ts c r0 H IH|j op ts c r0 U G H IH|f j op ts c r0 F U G H IH]; cbn [app].
    - exact H'.
    - constructor. auto.
    - apply r_group; auto.
    - apply r_call; auto.
  Qed.
  Lemma reduces_cons : forall a c t b c' r, reduces a c (t :: b) -> reduces b c' r -> reduces a (c ++ t :: c') r.
  Proof. intros a c t b c' r H H'. eapply reduces_app; [exact H|]. constructor. exact H'. Qed.

  Definition from (nt : nonterm) (ts : list token) (e : expr) (rest : list token) : Prop :=
    match nt with
    | NPrimary | NPostfix => exists c, reduces ts c rest /\ gram 0 c e
    | NBin n => exists c, reduces ts c rest /\ gram (S n) c e
    | NLoop n e1 => forall c0, gram (S n) c0 e1 -> exists c, reduces ts c rest /\ gram (S n) (c0 ++ c) e
    | NExpr => exists c, reduces ts c rest /\ gram 12 c e
    | NArgs f acc => exists c es, reduces ts (c ++ [TRParen]) rest /\ e = ECall f (rev acc ++ es) /\
        (c = [] /\ es = [] \/ match acc with [] => gargs c es | _ => exists c', c = TComma :: c' /\ gargs c' es end)
    end.
  Definition stuck (nt : nonterm) (ts r : list token) : Prop :=
    (exists j, ts = j ++ r) /\
    match nt with
    | NPrimary => r = ts \/ exists j, ts = TLParen :: j ++ r /\ ~ group isfun file section false (j ++ r)
    | NPostfix => r = ts \/ (exists j, ts = TLParen :: j ++ r /\ ~ group isfun file section false (j ++ r)) \/
        (exists f j, isfun f = true /\ ts = TIdent f :: TLParen :: j ++ r /\ ~ group isfun file section true (j ++ r))
    | _ => True
    end.
  Arguments stuck nt ts r /.
  Definition outcome (nt : nonterm) (ts : list token) (r : pres) : Prop :=
    match r with POk e rest => from nt ts e rest | PFail r => stuck nt ts r | PFuel => True end.

  Lemma suffix_tl : forall ts r : list token, (exists j, ts = j ++ r) -> exists j, ts = j ++ tl r.
  Proof.
    intros ts [|t r] [j ->]; cbn [tl]; [exists j; reflexivity|].
    exists (j ++ [t]). rewrite <- app_assoc. reflexivity.
  Qed.
  Lemma suffix_trans : forall a b c : list token, (exists j, a = j ++ b) -> (exists j, b = j ++ c) -> exists j, a = j ++ c.
  Proof. intros a b c [j ->] [j' ->]. exists (j ++ j'). rewrite app_assoc. reflexivity. Qed.
  Lemma suffix_cons : forall (t : token) a b, (exists j, a = j ++ b) -> exists j, t :: a = j ++ b.
  Proof. intros t a b [j ->]. exists (t :: j). reflexivity. Qed.

  Lemma parsed_from : forall k nt ts, level_ok nt -> outcome nt ts (parse k nt ts).
  Proof.
    induction k as [|k IH]; intros nt ts Hlv; [exact I|].
    assert (none : forall l : list token, exists j, l = j ++ l) by (intros l; exists []; reflexivity).
    destruct nt as [| |f acc|n|n e1|]; cbn [level_ok] in Hlv.
    - (* primary *)
      destruct ts as [|[] ts]; cbn [ParseModel.parse outcome from stuck]; auto;
        try (match goal with |- context [?t :: ts] => exists [t] end; split; [repeat constructor|constructor]).
      + exists [TIdent n]. split; [repeat constructor|]. destruct (String.eqb_spec n "."); [subst; constructor|constructor; assumption].
      + pose proof (IH NExpr ts I) as E.
        destruct (parse k NExpr ts) as [e r|r|] eqn:P; cbn [outcome from] in E; [| |exact I].
        * destruct E as [c [R G]].
          assert (F : stuck NPrimary (TLParen :: ts) (tl r) \/ exists r', r = TRParen :: r').
          { destruct r as [|t r]; [|destruct t; eauto]; left.
            all: pose proof (reduces_suffix _ _ _ R) as Su; (split; [apply suffix_cons, suffix_tl, Su|]);
              right; apply suffix_tl in Su; destruct Su as [j Ej]; exists j; (split; [f_equal; exact Ej|]);
              rewrite <- Ej; intros Gr; destruct (group_runs ts Gr) as [c0 [e0 [r0 [_ [_ Hrun]]]]];
              pose proof (run_fun _ _ _ _ (run_of _ _ _ _ P ltac:(discriminate)) Hrun) as E; discriminate E. }
          destruct F as [F|[r' ->]].
          -- destruct r as [|[] r]; try exact F.
             cbn [outcome from]. exists (TLParen :: c ++ [TRParen]).
             split; [constructor; eapply reduces_app; [exact R|repeat constructor]|constructor; exact G].
          -- cbn [outcome from]. exists (TLParen :: c ++ [TRParen]).
             split; [constructor; eapply reduces_app; [exact R|repeat constructor]|constructor; exact G].
        * destruct E as [Su _]. cbn [outcome stuck]. split; [apply suffix_cons, suffix_tl, Su|].
          right. apply suffix_tl in Su. destruct Su as [j Ej]. exists j. split; [f_equal; exact Ej|]. rewrite <- Ej.
          intros Gr. destruct (group_runs ts Gr) as [c0 [e0 [r0 [_ [_ Hrun]]]]].
          pose proof (run_fun _ _ _ _ (run_of _ _ _ _ P ltac:(discriminate)) Hrun) as E. discriminate E.
    - (* postfix *)
      assert (Hp : outcome NPostfix ts (parse k NPrimary ts)).
      { pose proof (IH NPrimary ts I) as E. destruct (parse k NPrimary ts) as [e r|r|]; cbn [outcome from stuck] in *; auto.
        destruct E as [Su [E|E]]; auto. }
      destruct ts as [|[] ts]; try exact Hp. destruct ts as [|[] ts]; try exact Hp.
      cbn [ParseModel.parse]. destruct (isfun n) eqn:Hf; [|exact Hp].
      pose proof (IH (NArgs n []) ts I) as E.
      destruct (parse k (NArgs n []) ts) as [e r|r|] eqn:P; cbn [outcome from stuck] in *; [| |exact I].
      + destruct E as [c [es [R [-> G]]]]. exists (TIdent n :: TLParen :: c ++ [TRParen]).
        split; [do 2 constructor; exact R|]. cbn [rev app].
        destruct G as [[-> ->]|G]; [apply g_call0; exact Hf|apply g_call; assumption].
      + destruct E as [Su _]. split; [do 2 apply suffix_cons; exact Su|]. right. right.
        destruct Su as [j Ej]. exists n, j. split; [exact Hf|]. split; [do 2 f_equal; exact Ej|]. rewrite <- Ej. intros Gr.
        destruct (call_runs n ts Gr) as [c0 [es [r0 [_ [_ Hrun]]]]].
        pose proof (run_fun _ _ _ _ (run_of _ _ _ _ P ltac:(discriminate)) Hrun) as E. discriminate E.
    - (* arguments *)
      assert (Hend : forall r, ts = TRParen :: r -> outcome (NArgs f acc) ts (POk (ECall f (rev acc)) r)).
      { intros r ->. cbn [outcome from]. exists [], []. split; [repeat constructor|]. rewrite app_nil_r. auto. }
      assert (Harg : forall ts', match acc with [] => ts' = ts | _ => ts = TComma :: ts' end ->
        outcome (NArgs f acc) ts
          match parse k NExpr ts' with
          | POk e r => parse k (NArgs f (e :: acc)) r | PFail r => PFail r | PFuel => PFuel end).
      { intros ts' Et. pose proof (IH NExpr ts' I) as E.
        destruct (parse k NExpr ts') as [e r|r|]; cbn [outcome from stuck] in *; [| |exact I].
        - destruct E as [c [R G]]. pose proof (IH (NArgs f (e :: acc)) r I) as E.
          destruct (parse k (NArgs f (e :: acc)) r) as [e' r'|r'|]; cbn [outcome from stuck] in *; [| |exact I].
          + destruct E as [c' [es [R' [-> G']]]]. cbn [rev]. rewrite <- app_assoc. cbn [app].
            assert (Hc : exists c2, reduces ts' (c2 ++ [TRParen]) r' /\ gargs c2 (e :: es)).
            { destruct G' as [[-> ->]|[c3 [-> G3]]].
              - exists c. split; [eapply reduces_app; [exact R|exact R']|constructor; exact G].
              - exists (c ++ TComma :: c3). split; [rewrite <- app_assoc; eapply reduces_app; [exact R|exact R']|constructor; assumption]. }
            destruct Hc as [c2 [R2 G2]]. destruct acc as [|a acc].
            * subst ts'. exists c2, (e :: es). split; [exact R2|]. split; [reflexivity|]. right. exact G2.
            * subst ts. exists (TComma :: c2), (e :: es). split; [cbn [app]; constructor; exact R2|]. split; [reflexivity|]. right. eauto.
          + destruct E as [Su _]. split; [|exact I]. pose proof (reduces_suffix _ _ _ R) as Su1.
            destruct acc as [|a acc]; subst; [|apply suffix_cons]; eapply suffix_trans; eassumption.
        - destruct E as [Su _]. split; [|exact I]. destruct acc; subst; [|apply suffix_cons]; exact Su. }
      assert (Hbad : outcome (NArgs f acc) ts (PFail (tl ts))).
      { cbn [outcome stuck]. split; [|exact I]. apply suffix_tl, none. }
      cbn [ParseModel.parse].
      destruct acc as [|a acc].
      + destruct ts as [|[] ts]; try (apply (Harg _ eq_refl)). apply Hend. reflexivity.
      + destruct ts as [|[] ts]; try exact Hbad; [|apply (Harg _ eq_refl)] || idtac.
        all: try (apply Hend; reflexivity). all: try (apply (Harg _ eq_refl)).
    - (* unary and binary levels *)
      destruct n as [|n]; cbn [ParseModel.parse].
      + pose proof (IH NPostfix ts I) as E. destruct (parse k NPostfix ts) as [e r|r|] eqn:P; [| |exact I]; cbn [outcome from stuck] in *.
        { destruct E as [c [R G]]. exists c. split; [exact R|]. apply g_up; [lia|exact G]. }
        destruct E as [Su E].
        pose proof (IH NPostfix (tl r) I) as E2. destruct (parse k NPostfix (tl r)) as [e' r'|r'|] eqn:P2; [| |exact I]; cbn [outcome from] in *.
        * destruct E2 as [c [R G]]. destruct (unary_at (peek r) e') as [e''|] eqn:U; cbn [outcome from stuck].
          -- destruct r as [|t r]; [discriminate U|]. cbn [tl peek] in *. exists (t :: c).
             assert (Ut : is_unary t = true) by (destruct t; try discriminate U; reflexivity).
             split.
             { destruct E as [<-|[[j [-> N]]|[f [j [Hf [-> N]]]]]]; [constructor|apply r_group|apply r_call]; assumption. }
             destruct t; try discriminate U; injection U as <-;
               [apply g_plus|apply (g_un _ _ _ UNeg)|apply (g_un _ _ _ UBitNot)|apply (g_un _ _ _ ULogNot)|apply g_tostring]; exact G.
          -- split; [|exact I]. eapply suffix_trans; [apply suffix_tl, Su|]. exact (reduces_suffix _ _ _ R).
        * destruct E2 as [Su2 _]. cbn [stuck]. split; [|exact I]. eapply suffix_trans; [apply suffix_tl, Su|exact Su2].
      + pose proof (IH (NBin n) ts ltac:(cbn; lia)) as E. destruct (parse k (NBin n) ts) as [e r|r|] eqn:P; [|exact E|exact I]. cbn [outcome from] in E.
        destruct E as [c [R G]]. pose proof (IH (NLoop (S n) e) r ltac:(cbn; lia)) as L.
        destruct (parse k (NLoop (S n) e) r) as [e' r'|r'|]; cbn [outcome from stuck] in *; [| |exact I].
        * destruct (L c) as [c' [R' G']]; [apply g_up; [lia|exact G]|]. exists (c ++ c'). split; [eapply reduces_app; eassumption|exact G'].
        * split; [|exact I]. eapply suffix_trans; [exact (reduces_suffix _ _ _ R)|apply L].
    - (* loop *)
      cbn [ParseModel.parse]. destruct (op_at n (peek ts)) as [op|] eqn:Eo.
      2:{ cbn [outcome from]. intros c0 H0. exists []. split; [constructor|]. rewrite app_nil_r. exact H0. }
      destruct ts as [|t ts]; [cbn in Eo; rewrite op_at_nil in Eo; discriminate|]. cbn [peek tl] in *.
      apply op_at_spec in Eo. destruct Eo as [-> En].
      pose proof (IH (NBin (n - 1)) ts ltac:(cbn; lia)) as E.
      destruct (parse k (NBin (n - 1)) ts) as [e2 r|r|] eqn:P; cbn [outcome from stuck] in *; [| |exact I].
      + destruct E as [c [R G]]. pose proof (IH (NLoop n (EBin op e1 e2)) r ltac:(cbn; lia)) as L.
        destruct (parse k (NLoop n (EBin op e1 e2)) r) as [e' r'|r'|]; cbn [outcome from stuck] in *; [| |exact I].
        * intros c0 H0. destruct (L (c0 ++ bin_token op :: c)) as [c' [R' G']].
          { rewrite En. apply g_bin; [rewrite <- En; exact H0|]. replace (c_prec op - 1)%nat with (S (n - 1)) by lia. exact G. }
          exists (bin_token op :: c ++ c'). split; [constructor; eapply reduces_app; eassumption|].
          rewrite <- app_assoc in G'. exact G'.
        * split; [|exact I]. apply suffix_cons. eapply suffix_trans; [exact (reduces_suffix _ _ _ R)|apply L].
      + split; [|exact I]. apply suffix_cons, E.
    - (* expression *)
      cbn [ParseModel.parse]. pose proof (IH (NBin 10) ts ltac:(cbn; lia)) as E.
      destruct (parse k (NBin 10) ts) as [c r|r|] eqn:P; cbn [outcome from stuck] in *; [|exact E|exact I].
      destruct E as [tc [R G]].
      assert (Hplain : outcome NExpr ts (POk c r)).
      { cbn [outcome from]. exists tc. split; [exact R|]. apply g_up; [lia|exact G]. }
      destruct r as [|[] r]; try exact Hplain. clear Hplain.
      assert (Su : exists j, ts = j ++ r).
      { eapply suffix_trans; [exact (reduces_suffix _ _ _ R)|]. apply suffix_cons, none. }
      pose proof (IH NExpr r I) as A. destruct (parse k NExpr r) as [a r'|r'|] eqn:P2; cbn [outcome from stuck] in *; [| |exact I].
      2:{ split; [|exact I]. eapply suffix_trans; [exact Su|apply A]. }
      destruct A as [ta [Ra Ga]].
      assert (Su' : exists j, ts = j ++ tl r').
      { eapply suffix_trans; [exact Su|]. apply suffix_tl. exact (reduces_suffix _ _ _ Ra). }
      assert (Hbad : outcome NExpr ts (PFail (tl r'))) by (split; [exact Su'|exact I]).
      destruct r' as [|[] r']; try exact Hbad. clear Hbad. cbn [tl] in Su'.
      pose proof (IH NExpr r' I) as B. destruct (parse k NExpr r') as [b r''|r''|] eqn:P3; cbn [outcome from stuck] in *; [| |exact I].
      + destruct B as [tb [Rb Gb]]. exists (tc ++ TQuestion :: ta ++ TColon :: tb).
        split; [|apply g_cond; assumption].
        eapply reduces_cons; [exact R|]. eapply reduces_cons; eassumption.
      + split; [|exact I]. eapply suffix_trans; [exact Su'|apply B].
  Qed.

  Theorem parsed_reduces : forall ts e rest,
    parse_expression isfun file section ts = Some (e, rest) ->
    exists c, reduces ts c rest /\ gram 12 c e.
  Proof.
    intros ts e rest H. apply parse_expression_run in H. destruct H as [_ [k H]].
    pose proof (parsed_from k NExpr ts I) as E. rewrite H in E. exact E.
  Qed.
End P.

(** Multiplication signs in the tokens are multiplications in the tree. *)
Definition is_mult (t : token) : bool := match t with TMult => true | _ => false end.
Definition count_mult (ts : list token) : nat := List.length (filter is_mult ts).
Fixpoint mults (e : expr) : nat :=
  match e with
  | EUn _ a | EToString a => mults a
  | EBin op a b => (match op with BMult => 1 | _ => 0 end + mults a + mults b)%nat
  | ECond c a b => (mults c + mults a + mults b)%nat
  | ECall _ args => list_sum (map mults args)
  | _ => 0%nat
  end.

Lemma count_app : forall a b, count_mult (a ++ b) = (count_mult a + count_mult b)%nat.
Proof. intros. unfold count_mult. rewrite filter_app, app_length. reflexivity. Qed.
Lemma count_cons : forall t b, count_mult (t :: b) = ((if is_mult t then 1 else 0) + count_mult b)%nat.
Proof. intros. unfold count_mult. cbn. destruct (is_mult t); reflexivity. Qed.

Lemma gram_mults : forall isfun file section,
  (forall n ts e, gram isfun file section n ts e -> count_mult ts = mults e) /\
  (forall ts es, gargs isfun file section ts es -> count_mult ts = list_sum (map mults es)).
Proof.
  intros isfun file section. apply gram_gargs_ind; intros; cbn [mults map list_sum fold_right] in *;
    repeat (rewrite ?count_app, ?count_cons); cbn [is_mult];
    repeat match goal with H : count_mult _ = _ |- _ => rewrite H; clear H end;
    try (unfold count_mult; cbn; lia).
  - destruct op; unfold count_mult; cbn; lia.
  - destruct op; cbn; lia.
  - reflexivity.
Qed.
