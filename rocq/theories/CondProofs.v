(** Lemmas on conditional assembly. *)

Require Import List Bool Lia.
From Verif Require Import CondModel CondSpec.
Import ListNotations.

Section Cond.
  Variables env cmd cond : Type.
  Notation pstate := (pstate env cmd cond).
  Notation stmt := (stmt env cmd cond).
  Notation block := (block env cmd cond).
  Notation tail := (tail env cmd cond).
  Notation out := (out cmd cond).

  (** The part of parse_cond after the first block *)
  Definition after (fuel : nat) (r : cres) (k : cond) (a : list out) (p : pstate) : option (option out * pstate) :=
    match p_rest p with
    | [] => Some (None, fail p)
    | x :: l =>
        let p := push (opposite r) (rest p l) in
        let done := match x with
                    | TElse => match parse_seq fuel ElseTerm p with
                               | None => None
                               | Some (b, p) => Some (Some (Some (OSeq b)), rest p (tl (p_rest p)))
                               end
                    | TElseif c => match parse_cond fuel c p with None => None | Some (b, p) => Some (Some b, p) end
                    | TEndif => Some (Some None, p)
                    | _ => Some (None, p)
                    end in
        match done with
        | None => None
        | Some (None, p) => Some (None, pop p)
        | Some (Some b, p) => Some (Some (result r k (OSeq a) b), pop p)
        end
    end.
  Lemma cond_eq fuel c (p : pstate) : parse_cond (S fuel) c p =
    match c (top p) (p_env p) with
    | CPInvalid => Some (Some ODummy, fail p)
    | CPNone => Some (None, p)
    | CPOk r k => match parse_seq fuel IfTerm (push r p) with None => None | Some (a, p) => after fuel r k a (pop p) end
    end.
  Proof. reflexivity. Qed.
  Lemma seq_eq fuel t (p : pstate) : parse_seq (S fuel) t p =
    match p_rest p with
    | [] => Some ([], match t with NoTerm => p | _ => fail p end)
    | x :: l =>
        if ends t x then Some ([], p)
        else
          match parse_command fuel x (rest p l) with
          | None => None
          | Some (o, p) =>
              match parse_seq fuel t p with
              | None => None
              | Some (os, p') => Some (match o with Some o => if in_true (top p) then o :: os else os | None => os end, p')
              end
          end
    end.
  Proof. reflexivity. Qed.
  Lemma command_eq fuel x (p : pstate) : parse_command (S fuel) x p =
    match x with
    | TIf c => match parse_cond fuel c p with
               | None => None
               | Some (Some o, p) => Some (Some o, p)
               | Some (None, p) => Some (Some OInvalid, fail p)
               end
    | TOther f => let '(e, o, ok) := f (top p) (p_env p) in Some (o, state p e ok)
    | TOpen n => match parse_seq fuel (BlockTerm n) p with
                 | None => None
                 | Some (l, p) => Some (Some (OBlock n l), rest p (tl (p_rest p)))
                 end
    | _ => Some (Some OInvalid, fail p)
    end.
  Proof. reflexivity. Qed.

  (** ** Enough fuel *)
  Lemma total fuel :
    (forall t (p : pstate), 3 * List.length (p_rest p) + 1 <= fuel ->
       exists os p', parse_seq fuel t p = Some (os, p') /\ List.length (p_rest p') <= List.length (p_rest p)) /\
    (forall x (p : pstate), 3 * List.length (p_rest p) + 3 <= fuel ->
       exists o p', parse_command fuel x p = Some (o, p') /\ List.length (p_rest p') <= List.length (p_rest p)) /\
    (forall c (p : pstate), 3 * List.length (p_rest p) + 2 <= fuel ->
       exists o p', parse_cond fuel c p = Some (o, p') /\ List.length (p_rest p') <= List.length (p_rest p)).
  Proof.
    induction fuel as [|fuel (IHs & IHc & IHd)]; [repeat split; intros; lia|]. repeat split.
    - intros t p H. rewrite seq_eq. destruct (p_rest p) as [|x l] eqn:R.
      + eexists _, _. split; [reflexivity|]. destruct t; cbn [fail p_rest]; rewrite R; cbn; lia.
      + cbn [List.length] in H. destruct (ends t x); [eexists _, _; split; [reflexivity|]; rewrite R; cbn; lia|].
        destruct (IHc x (rest p l)) as (o & p1 & E1 & L1); [cbn [rest p_rest]; lia|]. rewrite E1. cbn [rest p_rest] in L1.
        destruct (IHs t p1) as (os & p2 & E2 & L2); [lia|]. rewrite E2. eexists _, _. split; [reflexivity|]. cbn [List.length]. lia.
    - intros x p H. rewrite command_eq. destruct x as [c|c| | |n|n|f]; try (eexists _, _; split; [reflexivity|]; cbn [fail p_rest]; lia).
      + destruct (IHd c p) as (o & p1 & E1 & L1); [lia|]. rewrite E1. destruct o; eexists _, _; (split; [reflexivity|]); cbn [fail p_rest]; lia.
      + destruct (IHs (BlockTerm n) p) as (o & p1 & E1 & L1); [lia|]. rewrite E1. eexists _, _. split; [reflexivity|]. cbn [rest p_rest].
        destruct (p_rest p1); cbn in *; lia.
      + destruct (f (top p) (p_env p)) as [[e o] ok]. eexists _, _. split; [reflexivity|]. cbn [state p_rest]. lia.
    - intros c p H. rewrite cond_eq. destruct (c (top p) (p_env p)) as [r k| |]; try (eexists _, _; split; [reflexivity|]; cbn [fail p_rest]; lia).
      destruct (IHs IfTerm (push r p)) as (a & p1 & E1 & L1); [cbn [push p_rest]; lia|]. rewrite E1. cbn [push p_rest] in L1. unfold after.
      destruct (p_rest (pop p1)) as [|x l] eqn:R; cbn [pop p_rest] in R; rewrite R in L1; [eexists _, _; split; [reflexivity|]; cbn; rewrite R; cbn; lia|].
      cbn [List.length] in L1. destruct x as [c'|c'| | |n|n|f]; try (eexists _, _; split; [reflexivity|]; cbn; lia).
      + destruct (IHd c' (push (opposite r) (rest (pop p1) l))) as (o & p2 & E2 & L2); [cbn [push rest p_rest]; lia|]. cbn [push rest p_rest] in L2. cbv zeta. rewrite E2.
        eexists _, _. split; [reflexivity|]. cbn [pop p_rest]. lia.
      + destruct (IHs ElseTerm (push (opposite r) (rest (pop p1) l))) as (o & p2 & E2 & L2); [cbn [push rest p_rest]; lia|]. cbn [push rest p_rest] in L2. cbv zeta. rewrite E2.
        eexists _, _. split; [reflexivity|]. cbn [pop rest p_rest]. destruct (p_rest p2); cbn in *; lia.
  Qed.
  Lemma parse_total e (l : list stmt) : exists os p, parse e l = Some (os, p).
  Proof.
    destruct (proj1 (total (fuel_for l)) NoTerm (mkP [mkInfo true false] e l false)) as (os & p & E & _); [unfold fuel_for; cbn [p_rest]; lia|]. exists os, p. exact E.
  Qed.

  (** ** The stack, errors *)
  Lemma balanced fuel :
    (forall t (p : pstate) os p', parse_seq fuel t p = Some (os, p') -> p_stack p' = p_stack p /\ (p_err p = true -> p_err p' = true)) /\
    (forall x (p : pstate) o p', parse_command fuel x p = Some (o, p') -> p_stack p' = p_stack p /\ (p_err p = true -> p_err p' = true)) /\
    (forall c (p : pstate) o p', parse_cond fuel c p = Some (o, p') -> p_stack p' = p_stack p /\ (p_err p = true -> p_err p' = true)).
  Proof.
    induction fuel as [|fuel (IHs & IHc & IHd)]; [refine (conj _ (conj _ _)); intros; discriminate|].
    refine (conj _ (conj _ _)); [intros t p os p'|intros x p o p'|intros c p o p']; intros H; (split; [revert H|revert H]).
    - rewrite seq_eq. intros H. destruct (p_rest p) as [|x l]; [destruct t; injection H as <- <-; reflexivity|]. destruct (ends t x); [injection H as <- <-; reflexivity|].
      destruct (parse_command fuel x (rest p l)) as [[o1 p1]|] eqn:E1; [|discriminate]. destruct (parse_seq fuel t p1) as [[os1 p2]|] eqn:E2; [|discriminate].
      injection H as <- <-. rewrite (proj1 (IHs _ _ _ _ E2)), (proj1 (IHc _ _ _ _ E1)). reflexivity.
    - rewrite seq_eq. intros H. destruct (p_rest p) as [|x l]; [destruct t; injection H as <- <-; cbn; auto|]. destruct (ends t x); [injection H as <- <-; auto|].
      destruct (parse_command fuel x (rest p l)) as [[o1 p1]|] eqn:E1; [|discriminate]. destruct (parse_seq fuel t p1) as [[os1 p2]|] eqn:E2; [|discriminate].
      injection H as <- <-. intros B. apply (IHs _ _ _ _ E2), (IHc _ _ _ _ E1). exact B.
    - rewrite command_eq. intros H. destruct x as [c|c| | |n|n|f]; try (injection H as <- <-; reflexivity).
      + destruct (parse_cond fuel c p) as [[[o1|] p1]|] eqn:E1; [| |discriminate]; injection H as <- <-; apply (IHd _ _ _ _ E1).
      + destruct (parse_seq fuel (BlockTerm n) p) as [[l p1]|] eqn:E1; [|discriminate]. injection H as <- <-. apply (IHs _ _ _ _ E1).
      + destruct (f (top p) (p_env p)) as [[e o1] ok]. injection H as <- <-. reflexivity.
    - rewrite command_eq. intros H. destruct x as [c|c| | |n|n|f]; try (injection H as <- <-; reflexivity).
      + destruct (parse_cond fuel c p) as [[[o1|] p1]|] eqn:E1; [| |discriminate]; injection H as <- <-; [apply (IHd _ _ _ _ E1)|reflexivity].
      + destruct (parse_seq fuel (BlockTerm n) p) as [[l p1]|] eqn:E1; [|discriminate]. injection H as <- <-. apply (IHs _ _ _ _ E1).
      + destruct (f (top p) (p_env p)) as [[e o1] ok]. injection H as <- <-. intros B. cbn [state p_err]. rewrite B. reflexivity.
    - rewrite cond_eq. intros H. destruct (c (top p) (p_env p)) as [r k| |]; try (injection H as <- <-; reflexivity).
      destruct (parse_seq fuel IfTerm (push r p)) as [[a p1]|] eqn:E1; [|discriminate]. apply IHs in E1. destruct E1 as [E1 _]. cbn [push p_stack] in E1.
      assert (Ep : p_stack (pop p1) = p_stack p) by (cbn [pop p_stack]; rewrite E1; reflexivity). clear E1. unfold after in H.
      destruct (p_rest (pop p1)) as [|x l]; [injection H as <- <-; exact Ep|]. cbv zeta in H. destruct x as [c'|c'| | |n|n|f]; try (injection H as <- <-; exact Ep).
      + destruct (parse_cond fuel c' (push (opposite r) (rest (pop p1) l))) as [[o2 p2]|] eqn:E2; [|discriminate]. injection H as <- <-. apply IHd in E2. destruct E2 as [E2 _].
        cbn [pop p_stack] in *. rewrite E2. cbn. rewrite <- Ep. reflexivity.
      + destruct (parse_seq fuel ElseTerm (push (opposite r) (rest (pop p1) l))) as [[o2 p2]|] eqn:E2; [|discriminate]. injection H as <- <-. apply IHs in E2. destruct E2 as [E2 _].
        cbn [pop rest p_stack] in *. rewrite E2. cbn. rewrite <- Ep. reflexivity.
    - rewrite cond_eq. intros H B. destruct (c (top p) (p_env p)) as [r k| |]; try (injection H as <- <-; auto).
      destruct (parse_seq fuel IfTerm (push r p)) as [[a p1]|] eqn:E1; [|discriminate]. apply IHs in E1. destruct E1 as [_ E1]. specialize (E1 B).
      unfold after in H. destruct (p_rest (pop p1)) as [|x l]; [injection H as <- <-; reflexivity|]. cbv zeta in H.
      destruct x as [c'|c'| | |n|n|f]; try (injection H as <- <-; exact E1).
      + destruct (parse_cond fuel c' (push (opposite r) (rest (pop p1) l))) as [[o2 p2]|] eqn:E2; [|discriminate]. injection H as <- <-. apply IHd in E2. destruct E2 as [_ E2].
        apply E2. exact E1.
      + destruct (parse_seq fuel ElseTerm (push (opposite r) (rest (pop p1) l))) as [[o2 p2]|] eqn:E2; [|discriminate]. injection H as <- <-. apply IHs in E2. destruct E2 as [_ E2].
        apply E2. exact E1.
  Qed.
  Lemma seq_stack fuel t (p : pstate) os p' : parse_seq fuel t p = Some (os, p') -> p_stack p' = p_stack p.
  Proof. intros H. exact (proj1 (proj1 (balanced fuel) _ _ _ _ H)). Qed.
  Lemma seq_err fuel t (p : pstate) os p' : parse_seq fuel t p = Some (os, p') -> p_err p' = false -> p_err p = false.
  Proof. intros H B. destruct (p_err p) eqn:X; [|reflexivity]. rewrite (proj2 (proj1 (balanced fuel) _ _ _ _ H) X) in B. discriminate. Qed.
  Lemma command_err fuel x (p : pstate) o p' : parse_command fuel x p = Some (o, p') -> p_err p' = false -> p_err p = false.
  Proof. intros H B. destruct (p_err p) eqn:X; [|reflexivity]. rewrite (proj2 (proj1 (proj2 (balanced fuel)) _ _ _ _ H) X) in B. discriminate. Qed.
  Lemma cond_err fuel c (p : pstate) o p' : parse_cond fuel c p = Some (o, p') -> p_err p' = false -> p_err p = false.
  Proof. intros H B. destruct (p_err p) eqn:X; [|reflexivity]. rewrite (proj2 (proj2 (proj2 (balanced fuel)) _ _ _ _ H) X) in B. discriminate. Qed.

  (** ** Reading well-nested text *)
  Scheme block_mut := Induction for CondSpec.block Sort Prop with tail_mut := Induction for CondSpec.tail Sort Prop.
  Combined Scheme block_tail from block_mut, tail_mut.

  Definition reads (b : block) : Prop := all (fun _ => True) spoken b -> forall fuel t (p : pstate) l os p',
    p_rest p = text b ++ l -> parse_seq fuel t p = Some (os, p') -> p_err p' = false ->
    exists fuel' os1 os2, os = os1 ++ os2 /\ parse_seq fuel' t (mkP (p_stack p) (pass (top p) (p_env p) b) l false) = Some (os2, p') /\
      (in_true (top p) = false -> os1 = []) /\
      (in_true (top p) = true -> forall rho, select rho (in_unknown (top p)) (p_env p) b = (pass (top p) (p_env p) b, flat_map (events rho) os1)) /\
      (all traceless (fun _ => True) b -> (in_true (top p) = false \/ in_unknown (top p) = true -> pass (top p) (p_env p) b = p_env p) /\
        (in_true (top p) = true -> forall rho, plain rho (in_unknown (top p)) (p_env p) b = select rho (in_unknown (top p)) (p_env p) b)).
  Definition reads_tail (t : tail) : Prop := all_tail (fun _ => True) spoken t -> forall fuel r k a (p : pstate) l o p',
    p_rest p = text_tail t ++ l -> after fuel r k a p = Some (o, p') -> p_err p' = false ->
    exists b, o = Some (result r k (OSeq a) b) /\ p' = mkP (p_stack p) (pass_tail (under (top p) (opposite r)) (p_env p) t) l false /\
      (in_true (under (top p) (opposite r)) = true -> forall rho,
         select_tail rho (in_unknown (under (top p) (opposite r))) (p_env p) t = (pass_tail (under (top p) (opposite r)) (p_env p) t, given rho b)) /\
      (all_tail traceless (fun _ => True) t ->
        (in_true (under (top p) (opposite r)) = false \/ in_unknown (under (top p) (opposite r)) = true -> pass_tail (under (top p) (opposite r)) (p_env p) t = p_env p) /\
        (in_true (under (top p) (opposite r)) = true -> forall rho,
           plain_tail rho (in_unknown (under (top p) (opposite r))) (p_env p) t = select_tail rho (in_unknown (under (top p) (opposite r))) (p_env p) t)).

  Lemma stops fuel t (x : stmt) (l : list stmt) (s : list info) (e : env) : ends t x = true -> forall os p', parse_seq fuel t (mkP s e (x :: l) false) = Some (os, p') ->
    os = [] /\ p' = mkP s e (x :: l) false.
  Proof. intros E os p' H. destruct fuel as [|fuel]; [discriminate|]. rewrite seq_eq in H. cbn [p_rest] in H. rewrite E in H. injection H as <- <-. auto. Qed.

  Lemma info_eta i : mkInfo (in_true i) (in_unknown i) = i.
  Proof. destruct i; reflexivity. Qed.
  Lemma info_true i : in_true i = true -> mkInfo true (in_unknown i) = i.
  Proof. destruct i; cbn; intros ->; reflexivity. Qed.
  Lemma under_true i r : in_true i = true -> in_true (under i r) = match r with CFalse => false | _ => true end.
  Proof. intros H. cbn. rewrite H. reflexivity. Qed.
  Lemma under_unknown i r : in_unknown (under i r) = in_unknown i || open_question r.
  Proof. reflexivity. Qed.
  Lemma under_idle i r : in_true i = false \/ in_unknown i = true -> in_true (under i r) = false \/ in_unknown (under i r) = true.
  Proof. destruct i, r; cbn; intros [-> | ->]; auto; rewrite ?orb_true_r; auto. Qed.

  Definition branch (rho : cond -> bool) (i : info) (e : env) (r : cres) (k : cond) (body : block) (t : tail) : env * list (event cmd) :=
    let v := in_unknown i || open_question r in
    if holds rho r k
    then let (e1, l1) := select rho v e body in (pass_tail (under i (opposite r)) e1 t, l1)
    else select_tail rho v (pass (under i r) e body) t.
  Definition plain_branch (rho : cond -> bool) (i : info) (e : env) (r : cres) (k : cond) (body : block) (t : tail) : env * list (event cmd) :=
    let v := in_unknown i || open_question r in if holds rho r k then plain rho v e body else plain_tail rho v e t.

  Lemma pass_if i (e : env) c (body : block) t b : pass i e (BIf c body t b) =
    match c i e with CPOk r _ => pass i (pass_tail (under i (opposite r)) (pass (under i r) e body) t) b | _ => e end.
  Proof. reflexivity. Qed.
  Lemma pass_elif i (e : env) c (body : block) t : pass_tail i e (LElif c body t) =
    match c i e with CPOk r _ => pass_tail (under i (opposite r)) (pass (under i r) e body) t | _ => e end.
  Proof. reflexivity. Qed.
  Lemma select_if rho i (e : env) c (body : block) t b : in_true i = true -> select rho (in_unknown i) e (BIf c body t b) =
    match c i e with
    | CPOk r k => let (e1, l1) := branch rho i e r k body t in let (e2, l2) := select rho (in_unknown i) e1 b in (e2, l1 ++ l2)
    | _ => (e, [])
    end.
  Proof. destruct i as [x u]. cbn [in_true in_unknown]. intros ->. reflexivity. Qed.
  Lemma select_elif rho i (e : env) c (body : block) t : in_true i = true -> select_tail rho (in_unknown i) e (LElif c body t) =
    match c i e with CPOk r k => branch rho i e r k body t | _ => (e, []) end.
  Proof. destruct i as [x u]. cbn [in_true in_unknown]. intros ->. reflexivity. Qed.
  Lemma plain_if rho i (e : env) c (body : block) t b : in_true i = true -> plain rho (in_unknown i) e (BIf c body t b) =
    match c i e with
    | CPOk r k => let (e1, l1) := plain_branch rho i e r k body t in let (e2, l2) := plain rho (in_unknown i) e1 b in (e2, l1 ++ l2)
    | _ => (e, [])
    end.
  Proof. destruct i as [x u]. cbn [in_true in_unknown]. intros ->. reflexivity. Qed.
  Lemma plain_elif rho i (e : env) c (body : block) t : in_true i = true -> plain_tail rho (in_unknown i) e (LElif c body t) =
    match c i e with CPOk r k => plain_branch rho i e r k body t | _ => (e, []) end.
  Proof. destruct i as [x u]. cbn [in_true in_unknown]. intros ->. reflexivity. Qed.

  Lemma cond_reads body t : reads body -> reads_tail t -> all (fun _ => True) spoken body -> all_tail (fun _ => True) spoken t ->
    forall c, spoken c -> forall fuel (p : pstate) l o p',
    p_rest p = text body ++ text_tail t ++ l -> parse_cond fuel c p = Some (o, p') -> p_err p' = false ->
    exists r k a b, c (top p) (p_env p) = CPOk r k /\ o = Some (result r k (OSeq a) b) /\
      p' = mkP (p_stack p) (pass_tail (under (top p) (opposite r)) (pass (under (top p) r) (p_env p) body) t) l false /\
      (in_true (top p) = true -> forall rho, branch rho (top p) (p_env p) r k body t =
         (pass_tail (under (top p) (opposite r)) (pass (under (top p) r) (p_env p) body) t, events rho (result r k (OSeq a) b))) /\
      (all traceless (fun _ => True) body -> all_tail traceless (fun _ => True) t ->
        (in_true (top p) = false \/ in_unknown (top p) = true ->
           pass_tail (under (top p) (opposite r)) (pass (under (top p) r) (p_env p) body) t = p_env p) /\
        (in_true (top p) = true -> forall rho, plain_branch rho (top p) (p_env p) r k body t = branch rho (top p) (p_env p) r k body t)).
  Proof.
    intros Rb Rt Ab At c Sc fuel p l o p' Hr H B. destruct fuel as [|fuel]; [discriminate|]. rewrite cond_eq in H.
    destruct (c (top p) (p_env p)) as [r k| |] eqn:C; [|injection H as <- <-; discriminate|destruct (Sc _ _ C)].
    destruct (parse_seq fuel IfTerm (push r p)) as [[a p1]|] eqn:E1; [|discriminate].
    assert (B1 : p_err p1 = false).
    { destruct (p_err p1) eqn:X; [|reflexivity]. unfold after in H. destruct (p_rest (pop p1)) as [|x l']; [injection H as <- <-; discriminate|]. cbv zeta in H.
      destruct x as [c'|c'| | |n|n|f]; try (injection H as <- <-; cbn in B; congruence).
      - destruct (parse_cond _ _ _) as [[o2 p2]|] eqn:E2; [|discriminate]. injection H as <- <-. apply cond_err in E2; [|exact B]. cbn in E2. congruence.
      - destruct (parse_seq fuel ElseTerm _) as [[o2 p2]|] eqn:E2; [|discriminate]. injection H as <- <-. apply seq_err in E2; [|exact B]. cbn in E2. congruence. }
    destruct (Rb Ab fuel IfTerm (push r p) (text_tail t ++ l) a p1 Hr E1 B1) as (f1 & os1 & os2 & Ea & E2 & _ & Sel & Tr).
    assert (Hd : exists x l', text_tail t ++ l = x :: l' /\ ends IfTerm x = true) by (destruct t; cbn [text_tail app]; eauto).
    destruct Hd as (x & l' & Hx & Ex). rewrite Hx in E2. destruct (stops _ _ _ _ _ _ Ex _ _ E2) as [-> ->]. rewrite app_nil_r in Ea. subst os1. clear E2.
    set (i := top p) in *. assert (Ti : top (push r p) = under i r) by reflexivity. rewrite Ti in *.
    change (p_env (push r p)) with (p_env p) in *. change (p_stack (push r p)) with (under i r :: p_stack p) in *.
    set (e1 := pass (under i r) (p_env p) body) in *.
    change (pop (mkP (under i r :: p_stack p) e1 (x :: l') false)) with (mkP (p_stack p) e1 (x :: l') false : pstate) in H.
    destruct (Rt At fuel r k a (mkP (p_stack p) e1 (x :: l') false) l o p' (eq_sym Hx) H B) as (b & -> & -> & Selt & Trt).
    change (top (mkP (p_stack p) e1 (x :: l') false : pstate)) with i in *. cbn [p_stack p_env] in *.
    exists r, k, a, b. split; [reflexivity|]. split; [reflexivity|]. split; [reflexivity|]. split.
    - intros T rho. unfold branch. fold e1. rewrite <- under_unknown in *. rewrite (under_true i r T) in Sel. rewrite (under_true i (opposite r) T) in Selt.
      destruct r; cbn [holds result opposite] in *.
      + rewrite (Sel eq_refl rho), (Selt eq_refl rho). cbn [events]. destruct (rho k); [reflexivity|]. unfold given. destruct b; reflexivity.
      + rewrite (Sel eq_refl rho). reflexivity.
      + change (in_unknown (under i CFalse)) with (in_unknown (under i CTrue)). rewrite (Selt eq_refl rho). destruct b; reflexivity.
    - intros Tb Tt. destruct (Tr Tb) as [Tr1 Tr2]. destruct (Trt Tt) as [Trt1 Trt2]. split.
      + intros I. fold e1. rewrite Trt1 by (apply under_idle; exact I). apply Tr1. apply under_idle. exact I.
      + intros T rho. unfold plain_branch, branch. fold e1. rewrite <- under_unknown in *. rewrite (under_true i r T) in *. rewrite (under_true i (opposite r) T) in *.
        destruct r; cbn [holds opposite] in *.
        * assert (U : in_unknown (under i CUnknown) = true) by (rewrite under_unknown; apply orb_true_r).
          rewrite (Tr2 eq_refl rho), (Sel eq_refl rho). destruct (rho k).
          -- rewrite Trt1 by auto. reflexivity.
          -- rewrite <- (Trt2 eq_refl rho), Tr1 by auto. reflexivity.
        * rewrite (Tr2 eq_refl rho), (Sel eq_refl rho). rewrite Trt1 by auto. reflexivity.
        * change (in_unknown (under i CFalse)) with (in_unknown (under i CTrue)) in *. rewrite <- (Trt2 eq_refl rho), Tr1 by auto. reflexivity.
  Qed.

  Lemma reads_all : (forall b : block, reads b) /\ (forall t : tail, reads_tail t).
  Proof.
    apply block_tail.
    - intros _ fuel t p l os p' Hr H B. exists fuel, [], os. split; [reflexivity|]. cbn [text app pass select] in *. split.
      + pose proof (seq_err _ _ _ _ _ H B) as X. destruct p as [s e r er]. cbn in *. subst. exact H.
      + split; [auto|]. split; [reflexivity|]. auto.
    - intros f b IH A fuel t p l os p' Hr H B. cbn [text app all] in *. destruct A as [_ A]. destruct fuel as [|fuel]; [discriminate|]. rewrite seq_eq in H. rewrite Hr in H.
      replace (ends t (TOther f)) with false in H by (destruct t; reflexivity). destruct (parse_command fuel (TOther f) (rest p (text b ++ l))) as [[o p1]|] eqn:E1; [|discriminate].
      destruct (parse_seq fuel t p1) as [[os' p2]|] eqn:E2; [|discriminate]. injection H as <- <-. pose proof (seq_err _ _ _ _ _ E2 B) as B1.
      destruct fuel as [|fuel]; [discriminate|]. rewrite command_eq in E1. change (top (rest p (text b ++ l))) with (top p) in E1. cbn [rest p_env] in E1.
      destruct (f (top p) (p_env p)) as [[e o1] ok] eqn:F. injection E1 as <- <-. cbn [state rest p_err p_stack p_rest] in B1. destruct ok; [|rewrite orb_true_r in B1; discriminate].
      destruct (IH A _ _ (state (rest p (text b ++ l)) e true) l _ _ eq_refl E2 B) as (f1 & os1 & os2 & -> & E3 & N & Sel & Tr).
      change (top (state (rest p (text b ++ l)) e true)) with (top p) in *. cbn [state rest p_env p_stack] in *.
      exists f1, (match o1 with Some o => if in_true (top p) then o :: os1 else os1 | None => os1 end), os2.
      cbn [pass]. rewrite F. cbn [fst]. split; [destruct o1; [destruct (in_true (top p))|]; reflexivity|]. split; [exact E3|]. split.
      + intros T. rewrite T. rewrite (N T). destruct o1; reflexivity.
      + split.
        * intros T rho. cbn [select]. rewrite (info_true _ T), F, (Sel T rho), T. destruct o1; reflexivity.
        * intros (Tf & Tb). destruct (Tr Tb) as [Tr1 Tr2]. split.
          -- intros I. rewrite Tr1 by exact I. exact (Tf _ _ _ _ I F).
          -- intros T rho. cbn [plain select]. rewrite (info_true _ T), F, (Tr2 T rho). reflexivity.
    - intros n body IHb b IH A fuel t p l os p' Hr H B. cbn [text app all] in *. destruct A as [Ab A]. destruct fuel as [|fuel]; [discriminate|]. rewrite seq_eq in H. rewrite Hr in H.
      replace (ends t (TOpen n)) with false in H by (destruct t; reflexivity).
      destruct (parse_command fuel (TOpen n) _) as [[o p1]|] eqn:E1; [|discriminate].
      destruct (parse_seq fuel t p1) as [[os' p2]|] eqn:E2; [|discriminate]. injection H as <- <-. pose proof (seq_err _ _ _ _ _ E2 B) as B1.
      destruct fuel as [|fuel]; [discriminate|]. rewrite command_eq in E1.
      destruct (parse_seq fuel (BlockTerm n) _) as [[lb p3]|] eqn:E3; [|discriminate]. injection E1 as <- <-. cbn [rest p_err] in B1.
      rewrite <- app_assoc in *. cbn [app] in *.
      destruct (IHb Ab fuel (BlockTerm n) (rest p (text body ++ TClose n :: text b ++ l)) (TClose n :: text b ++ l) lb p3 eq_refl E3 B1) as (f1 & os1 & os2 & -> & E4 & N & Sel & Tr).
      destruct (stops f1 (BlockTerm n) (TClose n) (text b ++ l) _ _ (PeanoNat.Nat.eqb_refl n) _ _ E4) as [-> ->]. rewrite app_nil_r in *. clear E4 E3.
      change (top (rest p (text body ++ TClose n :: text b ++ l))) with (top p) in *. cbn [rest p_env p_stack p_rest tl] in *.
      set (e1 := pass (top p) (p_env p) body) in *. change (rest (mkP (p_stack p) e1 (TClose n :: text b ++ l) false : pstate) (text b ++ l)) with (mkP (p_stack p) e1 (text b ++ l) false : pstate) in *.
      change (top (mkP (p_stack p) e1 (TClose n :: text b ++ l) false : pstate)) with (top p) in *.
      destruct (IH A _ _ (mkP (p_stack p) e1 (text b ++ l) false) l _ _ eq_refl E2 B) as (f2 & os3 & os4 & -> & E5 & N2 & Sel2 & Tr2).
      change (top (mkP (p_stack p) e1 (text b ++ l) false : pstate)) with (top p) in *. cbn [p_env p_stack] in *.
      exists f2, (if in_true (top p) then OBlock n os1 :: os3 else os3), os4. cbn [pass]. fold e1.
      split; [|split; [exact E5|split; [|split]]].
      + change (top (rest (mkP (p_stack p) e1 (TClose n :: text b ++ l) false : pstate) (text b ++ l))) with (top p). destruct (in_true (top p)); reflexivity.
      + intros T. rewrite T. exact (N2 T).
      + intros T rho. cbn [select]. rewrite (Sel T rho), (Sel2 T rho), T. cbn [flat_map events app]. rewrite <- app_assoc. reflexivity.
      + intros (Tb & Tc). destruct (Tr Tb) as [Q1 Q2]. destruct (Tr2 Tc) as [Q3 Q4]. split.
        * intros I. rewrite Q3 by exact I. exact (Q1 I).
        * intros T rho. cbn [plain select]. rewrite (Q2 T rho), (Sel T rho), (Q4 T rho). reflexivity.
    - intros c body IHb tl0 IHt b IH A fuel t p l os p' Hr H B. cbn [text app all] in *. destruct A as (Sc & Ab & At & A). destruct fuel as [|fuel]; [discriminate|]. rewrite seq_eq in H. rewrite Hr in H.
      replace (ends t (TIf c)) with false in H by (destruct t; reflexivity).
      destruct (parse_command fuel (TIf c) _) as [[o p1]|] eqn:E1; [|discriminate].
      destruct (parse_seq fuel t p1) as [[os' p2]|] eqn:E2; [|discriminate]. injection H as <- <-. pose proof (seq_err _ _ _ _ _ E2 B) as B1.
      destruct fuel as [|fuel]; [discriminate|]. rewrite command_eq in E1.
      destruct (parse_cond fuel c _) as [[o3 p3]|] eqn:E3; [|discriminate].
      assert (B3 : p_err p3 = false) by (destruct o3; injection E1 as <- <-; [exact B1|discriminate]).
      rewrite <- !app_assoc in E3.
      destruct (cond_reads body tl0 IHb IHt Ab At c Sc fuel (rest p (text body ++ text_tail tl0 ++ text b ++ l)) (text b ++ l) o3 p3 eq_refl E3 B3) as (r & k & a & bb & C & -> & -> & Sel & Tr).
      injection E1 as <- <-. change (top (rest p (text body ++ text_tail tl0 ++ text b ++ l))) with (top p) in *. cbn [rest p_env p_stack] in *.
      set (e2 := pass_tail _ _ tl0) in *. destruct (IH A _ _ (mkP (p_stack p) e2 (text b ++ l) false) l _ _ eq_refl E2 B) as (f2 & os3 & os4 & -> & E5 & N2 & Sel2 & Tr2).
      change (top (mkP (p_stack p) e2 (text b ++ l) false : pstate)) with (top p) in *. cbn [p_env p_stack] in *.
      exists f2, (if in_true (top p) then result r k (OSeq a) bb :: os3 else os3), os4. rewrite pass_if, C. fold e2.
      split; [destruct (in_true (top p)); reflexivity|]. split; [exact E5|]. split; [intros T; rewrite T; exact (N2 T)|]. split.
      + intros T rho. rewrite (select_if rho _ _ _ _ _ _ T), C, (Sel T rho), (Sel2 T rho), T. reflexivity.
      + intros (_ & Tb & Tt & Tc). destruct (Tr Tb Tt) as [Q1 Q2]. destruct (Tr2 Tc) as [Q3 Q4]. split.
        * intros I. rewrite Q3 by exact I. exact (Q1 I).
        * intros T rho. rewrite (select_if rho _ _ _ _ _ _ T), (plain_if rho _ _ _ _ _ _ T), C, (Q2 T rho), (Sel T rho), (Q4 T rho). reflexivity.
    - intros _ fuel r k a p l o p' Hr H B. cbn [text_tail app] in Hr. unfold after in H. rewrite Hr in H. cbv zeta in H. injection H as <- <-. change (p_err p = false) in B.
      exists None. split; [reflexivity|]. split; [rewrite <- B; reflexivity|]. split; [reflexivity|]. auto.
    - intros body IH A fuel r k a p l o p' Hr H B. cbn [text_tail app all_tail] in *. unfold after in H. rewrite Hr in H. cbv zeta in H.
      destruct (parse_seq fuel ElseTerm _) as [[lb p3]|] eqn:E3; [|discriminate]. injection H as <- <-. cbn [rest pop p_err] in B.
      rewrite <- app_assoc in E3. cbn [app] in E3.
      destruct (IH A fuel ElseTerm (push (opposite r) (rest p (text body ++ TEndif :: l))) (TEndif :: l) lb p3 eq_refl E3 B) as (f1 & os1 & os2 & -> & E4 & N & Sel & Tr).
      destruct (stops f1 ElseTerm TEndif l _ _ eq_refl _ _ E4) as [-> ->]. rewrite app_nil_r in *. clear E4 E3.
      set (i := under (top p) (opposite r)) in *.
      change (top (push (opposite r) (rest p (text body ++ TEndif :: l)))) with i in *. cbn [push rest p_env p_stack p_rest tl pop] in *.
      exists (Some (OSeq os1)). split; [reflexivity|]. split; [reflexivity|]. split.
      + intros T rho. exact (Sel T rho).
      + intros Tb. exact (Tr Tb).
    - intros c body IHb t IHt A fuel r k a p l o p' Hr H B. cbn [text_tail app all_tail] in *. destruct A as (Sc & Ab & At). unfold after in H. rewrite Hr in H. cbv zeta in H.
      destruct (parse_cond fuel c _) as [[o3 p3]|] eqn:E3; [|discriminate]. injection H as <- <-. cbn [pop p_err] in B. rewrite <- app_assoc in E3.
      destruct (cond_reads body t IHb IHt Ab At c Sc fuel (push (opposite r) (rest p (text body ++ text_tail t ++ l))) l o3 p3 eq_refl E3 B) as (r' & k' & a' & bb & C & -> & -> & Sel & Tr).
      set (i := under (top p) (opposite r)) in *. change (top (push (opposite r) (rest p (text body ++ text_tail t ++ l)))) with i in *. cbn [push rest p_env p_stack pop tl] in *.
      exists (Some (result r' k' (OSeq a') bb)). split; [reflexivity|]. rewrite pass_elif, C. split; [reflexivity|]. split.
      + intros T rho. rewrite (select_elif rho _ _ _ _ _ T), C. exact (Sel T rho).
      + intros (_ & Tb & Tt). destruct (Tr Tb Tt) as [Q1 Q2]. split; [exact Q1|]. intros T rho. rewrite (select_elif rho _ _ _ _ _ T), (plain_elif rho _ _ _ _ _ T), C. exact (Q2 T rho).
  Qed.

  Lemma parse_select (b : block) e os p : all (fun _ => True) spoken b -> parse e (text b) = Some (os, p) -> p_err p = false ->
    forall rho, select rho false e b = (p_env p, flat_map (events rho) os) /\ p_stack p = [mkInfo true false] /\ p_rest p = [] /\
      (all traceless (fun _ => True) b -> plain rho false e b = (p_env p, flat_map (events rho) os)).
  Proof.
    intros A H B rho. unfold parse in H. pose proof (seq_stack _ _ _ _ _ H) as St. cbn in St.
    destruct (proj1 reads_all b A (fuel_for (text b)) NoTerm (mkP [mkInfo true false] e (text b) false) [] os p (eq_sym (app_nil_r _)) H B) as (f1 & os1 & os2 & -> & E & _ & Sel & Tr).
    cbn [p_stack p_env top hd in_true in_unknown] in *. destruct f1 as [|f1]; [discriminate|]. rewrite seq_eq in E. cbn [p_rest] in E. injection E as <- <-.
    rewrite app_nil_r. cbn [p_env p_rest]. specialize (Sel eq_refl rho). split; [exact Sel|]. split; [exact St|]. split; [reflexivity|].
    intros T. rewrite (proj2 (Tr T) eq_refl rho). exact Sel.
  Qed.

  (** ** Accepted text is well nested *)
  Definition stopped (t : terms) (l : list stmt) : Prop := match t with NoTerm => l = [] | _ => exists x l', l = x :: l' /\ ends t x = true end.
  Lemma nested fuel :
    (forall t (p : pstate) os p', Forall (says spoken) (p_rest p) -> parse_seq fuel t p = Some (os, p') -> p_err p' = false ->
       exists b, p_rest p = text b ++ p_rest p' /\ stopped t (p_rest p')) /\
    (forall x (p : pstate) o p', Forall (says spoken) (x :: p_rest p) -> parse_command fuel x p = Some (o, p') -> p_err p' = false ->
       exists b, x :: p_rest p = text b ++ p_rest p') /\
    (forall c (p : pstate) o p', spoken c -> Forall (says spoken) (p_rest p) -> parse_cond fuel c p = Some (o, p') -> p_err p' = false ->
       exists body t, p_rest p = text body ++ text_tail t ++ p_rest p').
  Proof.
    induction fuel as [|fuel (IHs & IHc & IHd)]; [refine (conj _ (conj _ _)); intros; discriminate|].
    assert (Tl : forall (l1 l2 : list stmt), Forall (says spoken) (l1 ++ l2) -> Forall (says spoken) l2) by (intros l1 l2 F; apply Forall_app in F; apply F).
    assert (App : forall b1 b2 : block, exists b3 : block, text b3 = text b1 ++ text b2).
    { induction b1 as [|f b1 IH|n body _ b1 IH|c body _ t b1 IH]; intros b2.
      - exists b2. reflexivity.
      - destruct (IH b2) as [b3 E]. exists (BOther f b3). cbn [text app]. rewrite E. reflexivity.
      - destruct (IH b2) as [b3 E]. exists (BOpen n body b3). cbn [text app]. rewrite E, <- app_assoc. reflexivity.
      - destruct (IH b2) as [b3 E]. exists (BIf c body t b3). cbn [text app]. rewrite E, <- !app_assoc. reflexivity. }
    refine (conj _ (conj _ _)).
    - intros t p os p' F H B. rewrite seq_eq in H. destruct (p_rest p) as [|x l] eqn:R.
      + destruct t; injection H as <- <-; try discriminate. exists BNil. rewrite R. split; reflexivity.
      + destruct (ends t x) eqn:E.
        * injection H as <- <-. exists BNil. split; [rewrite R; reflexivity|]. rewrite R. destruct t; [discriminate| | |]; exists x, l; auto.
        * destruct (parse_command fuel x (rest p l)) as [[o1 p1]|] eqn:E1; [|discriminate]. destruct (parse_seq fuel t p1) as [[os1 p2]|] eqn:E2; [|discriminate].
          injection H as <- <-. pose proof (seq_err _ _ _ _ _ E2 B) as B1. destruct (IHc x (rest p l) o1 p1 F E1 B1) as [b1 X]. cbn [rest p_rest] in X.
          rewrite X in F. destruct (IHs t p1 os1 p2 (Tl _ _ F) E2 B) as (b2 & Y & St). destruct (App b1 b2) as [b3 Z]. exists b3. split; [|exact St]. rewrite Z, X, Y, <- app_assoc. reflexivity.
    - intros x p o p' F H B. rewrite command_eq in H. inversion F as [|? ? F1 F2]; subst. destruct x as [c|c| | |n|n|f]; try (injection H as <- <-; discriminate).
      + destruct (parse_cond fuel c p) as [[[o1|] p1]|] eqn:E1; [| |discriminate]; injection H as <- <-; [|discriminate].
        destruct (IHd c p _ _ F1 F2 E1 B) as (body & t & X). exists (BIf c body t BNil). cbn [text app]. rewrite X, app_nil_r, <- app_assoc. reflexivity.
      + destruct (parse_seq fuel (BlockTerm n) p) as [[l p1]|] eqn:E1; [|discriminate]. injection H as <- <-. destruct (IHs _ p _ _ F2 E1 B) as (body & X & St).
        destruct St as (y & l' & Y & Ey). rewrite Y in X. destruct y; try discriminate. apply PeanoNat.Nat.eqb_eq in Ey. subst n0.
        exists (BOpen n body BNil). cbn [text app rest p_rest]. rewrite X, Y, <- app_assoc. reflexivity.
      + destruct (f (top p) (p_env p)) as [[e o1] ok]. injection H as <- <-. exists (BOther f BNil). reflexivity.
    - intros c p o p' Sc F H B. rewrite cond_eq in H. destruct (c (top p) (p_env p)) as [r k| |] eqn:C; [|injection H as <- <-; discriminate|destruct (Sc _ _ C)].
      destruct (parse_seq fuel IfTerm (push r p)) as [[a p1]|] eqn:E1; [|discriminate]. unfold after in H. destruct (p_rest (pop p1)) as [|x l] eqn:R; [injection H as <- <-; discriminate|].
      cbn [pop p_rest] in R. cbv zeta in H. destruct (p_err p1) eqn:B1.
      { exfalso. destruct x as [c'|c'| | |n|n|f]; try (injection H as <- <-; cbn in B; congruence).
        - destruct (parse_cond _ _ _) as [[o2 p2]|] eqn:E2; [|discriminate]. injection H as <- <-. apply cond_err in E2; [|exact B]. cbn in E2. congruence.
        - destruct (parse_seq fuel ElseTerm _) as [[o2 p2]|] eqn:E2; [|discriminate]. injection H as <- <-. apply seq_err in E2; [|exact B]. cbn in E2. congruence. }
      destruct (IHs IfTerm (push r p) a p1 F E1 B1) as (body & X & (y & l' & Y & Ey)). cbn [push p_rest] in X. assert (y = x /\ l' = l) as [-> ->] by (split; congruence). rewrite Y in X.
      assert (Fx : Forall (says spoken) (x :: l)) by (rewrite X in F; exact (Tl _ _ F)). inversion Fx as [|? ? F1 F2]; subst.
      destruct x as [c'|c'| | |n|n|f]; try discriminate.
      + destruct (parse_cond fuel c' (push (opposite r) (rest (pop p1) l))) as [[o2 p2]|] eqn:E2; [|discriminate]. injection H as <- <-.
        destruct (IHd c' (push (opposite r) (rest (pop p1) l)) _ _ F1 F2 E2 B) as (b2 & t2 & Z). cbn [push rest p_rest] in Z.
        exists body, (LElif c' b2 t2). cbn [text_tail app pop p_rest]. rewrite X, Z, <- app_assoc. reflexivity.
      + destruct (parse_seq fuel ElseTerm (push (opposite r) (rest (pop p1) l))) as [[o2 p2]|] eqn:E2; [|discriminate]. injection H as <- <-.
        destruct (IHs ElseTerm (push (opposite r) (rest (pop p1) l)) _ _ F2 E2 B) as (b2 & Z & (y & l' & Y2 & Ey2)). cbn [push rest p_rest] in Z. rewrite Y2 in Z. destruct y; try discriminate.
        exists body, (LElse b2). cbn [text_tail app pop rest p_rest]. rewrite X, Z, Y2, <- app_assoc. reflexivity.
      + injection H as <- <-. exists body, LEnd. cbn [text_tail app pop push rest p_rest]. exact X.
  Qed.
  Lemma accepted_nested e (l : list stmt) os p : Forall (says spoken) l -> parse e l = Some (os, p) -> p_err p = false -> exists b, l = text b.
  Proof.
    intros F H B. destruct (proj1 (nested _) NoTerm (mkP [mkInfo true false] e l false) os p F H B) as (b & X & St). exists b. cbn [p_rest] in X. cbn in St. rewrite St, app_nil_r in X. exact X.
  Qed.

  (** ** Only the top of the stack matters *)
  Definition on (s : list info) (p : pstate) : pstate := mkP s (p_env p) (p_rest p) (p_err p).
  Lemma context fuel :
    (forall t (p : pstate) s, hd (mkInfo false false) s = top p ->
       parse_seq fuel t (on s p) = match parse_seq fuel t p with Some (os, p') => Some (os, on s p') | None => None end) /\
    (forall x (p : pstate) s, hd (mkInfo false false) s = top p ->
       parse_command fuel x (on s p) = match parse_command fuel x p with Some (o, p') => Some (o, on s p') | None => None end) /\
    (forall c (p : pstate) s, hd (mkInfo false false) s = top p ->
       parse_cond fuel c (on s p) = match parse_cond fuel c p with Some (o, p') => Some (o, on s p') | None => None end).
  Proof.
    induction fuel as [|fuel (IHs & IHc & IHd)]; [refine (conj _ (conj _ _)); intros; reflexivity|].
    assert (Tp : forall t (p : pstate) os p', parse_seq fuel t p = Some (os, p') -> top p' = top p).
    { intros t p os p' H. unfold top. rewrite (seq_stack _ _ _ _ _ H). reflexivity. }
    assert (Tc : forall x (p : pstate) o p', parse_command fuel x p = Some (o, p') -> top p' = top p).
    { intros t p os p' H. unfold top. rewrite (proj1 (proj1 (proj2 (balanced fuel)) _ _ _ _ H)). reflexivity. }
    refine (conj _ (conj _ _)).
    - intros t p s T. rewrite !seq_eq. cbn [on p_rest]. destruct (p_rest p) as [|x l]; [destruct t; reflexivity|]. destruct (ends t x); [reflexivity|].
      change (rest (on s p) l) with (on s (rest p l)). rewrite (IHc x (rest p l) s T). destruct (parse_command fuel x (rest p l)) as [[o p1]|] eqn:E1; [|reflexivity].
      assert (T1 : hd (mkInfo false false) s = top p1) by (rewrite (Tc _ _ _ _ E1); exact T).
      rewrite (IHs t p1 s T1). destruct (parse_seq fuel t p1) as [[os p2]|]; [|reflexivity]. change (top (on s p1)) with (hd (mkInfo false false) s). rewrite T1. reflexivity.
    - intros x p s T. rewrite !command_eq. destruct x as [c|c| | |n|n|f]; try reflexivity.
      + rewrite (IHd c p s T). destruct (parse_cond fuel c p) as [[[o|] p1]|]; reflexivity.
      + rewrite (IHs (BlockTerm n) p s T). destruct (parse_seq fuel (BlockTerm n) p) as [[l p1]|]; reflexivity.
      + change (top (on s p)) with (hd (mkInfo false false) s). rewrite T. change (p_env (on s p)) with (p_env p). destruct (f (top p) (p_env p)) as [[e o] ok]. reflexivity.
    - intros c p s T. rewrite !cond_eq. change (top (on s p)) with (hd (mkInfo false false) s). rewrite T. change (p_env (on s p)) with (p_env p).
      destruct (c (top p) (p_env p)) as [r k| |]; try reflexivity.
      assert (Pu : forall r q, hd (mkInfo false false) s = top q -> push r (on s q) = on (under (top q) r :: s) (push r q)).
      { intros r' q Tq. unfold push, on. change (top {| p_stack := s; p_env := p_env q; p_rest := p_rest q; p_err := p_err q |}) with (hd (mkInfo false false) s). rewrite Tq. reflexivity. }
      rewrite (Pu r p T), (IHs IfTerm (push r p) (under (top p) r :: s) eq_refl).
      destruct (parse_seq fuel IfTerm (push r p)) as [[a p1]|] eqn:E1; [|reflexivity]. pose proof (seq_stack _ _ _ _ _ E1) as St. cbn [push p_stack] in St.
      assert (T1 : hd (mkInfo false false) s = top (pop p1)) by (unfold top, pop; cbn [p_stack]; rewrite St; exact T).
      change (pop (on (under (top p) r :: s) p1)) with (on s (pop p1)). unfold after. change (p_rest (on s (pop p1))) with (p_rest (pop p1)).
      destruct (p_rest (pop p1)) as [|x l]; [reflexivity|]. cbv zeta. change (rest (on s (pop p1)) l) with (on s (rest (pop p1) l)).
      rewrite (Pu (opposite r) (rest (pop p1) l) T1). destruct x as [c'|c'| | |n|n|f]; try reflexivity.
      + rewrite (IHd c' (push (opposite r) (rest (pop p1) l)) (under (top (rest (pop p1) l)) (opposite r) :: s) eq_refl). destruct (parse_cond fuel c' (push (opposite r) (rest (pop p1) l))) as [[o2 p2]|]; reflexivity.
      + rewrite (IHs ElseTerm (push (opposite r) (rest (pop p1) l)) (under (top (rest (pop p1) l)) (opposite r) :: s) eq_refl). destruct (parse_seq fuel ElseTerm (push (opposite r) (rest (pop p1) l))) as [[o2 p2]|]; reflexivity.
  Qed.

  Lemma all_weaken (P P' : effect env cmd cond -> Prop) (Q Q' : condition env cond -> Prop) : (forall x, P x -> P' x) -> (forall x, Q x -> Q' x) ->
    (forall b : block, all P Q b -> all P' Q' b) /\ (forall t : tail, all_tail P Q t -> all_tail P' Q' t).
  Proof. intros HP HQ. apply block_tail; cbn [all all_tail]; intuition. Qed.

  (** Text whose last conditional has no end *)
  Fixpoint ifs (l : list stmt) : nat := match l with TIf _ :: l => S (ifs l) | _ :: l => ifs l | [] => 0 end.
  Fixpoint endifs (l : list stmt) : nat := match l with TEndif :: l => S (endifs l) | _ :: l => endifs l | [] => 0 end.
  Lemma ifs_app l1 l2 : ifs (l1 ++ l2) = ifs l1 + ifs l2.
  Proof. induction l1 as [|x l1 IH]; [reflexivity|]. destruct x; cbn [app ifs]; lia. Qed.
  Lemma endifs_app l1 l2 : endifs (l1 ++ l2) = endifs l1 + endifs l2.
  Proof. induction l1 as [|x l1 IH]; [reflexivity|]. destruct x; cbn [app endifs]; lia. Qed.
  Lemma counts : (forall b : block, ifs (text b) = endifs (text b)) /\ (forall t : tail, S (ifs (text_tail t)) = endifs (text_tail t)).
  Proof.
    apply block_tail; intros.
    - reflexivity.
    - exact H.
    - change (text (BOpen n body b)) with (TOpen n :: text body ++ TClose n :: text b). cbn [ifs endifs]. rewrite ifs_app, endifs_app. cbn [ifs endifs]. lia.
    - change (text (BIf c body t b)) with (TIf c :: text body ++ text_tail t ++ text b). cbn [ifs endifs]. rewrite !ifs_app, !endifs_app. lia.
    - reflexivity.
    - change (text_tail (LElse body)) with (TElse :: text body ++ [TEndif]). cbn [ifs endifs]. rewrite ifs_app, endifs_app. cbn [ifs endifs]. lia.
    - change (text_tail (LElif c body t)) with (TElseif c :: text body ++ text_tail t). cbn [ifs endifs]. rewrite ifs_app, endifs_app. lia.
  Qed.
  Lemma unclosed c1 f1 c2 f2 (b : block) : [TIf c1; TOther f1; TElseif c2; TOther f2] <> text b.
  Proof. intros H. pose proof (proj1 counts b) as C. rewrite <- H in C. discriminate. Qed.
End Cond.

(** ** The statements with an effect *)
Lemma equ_traceless n v : traceless (do_equ n v).
Proof.
  intros i e e' o I. unfold do_equ. destruct (in_true i); cbn [negb]; [|intros H; congruence]. destruct I as [|U]; [discriminate|]. rewrite U. intros H; congruence.
Qed.
Lemma macro_traceless n : traceless (do_macro n).
Proof. intros i e e' o I. unfold do_macro. destruct (in_unknown i); [intros H; congruence|]. destruct I as [T|]; [rewrite T; intros H; cbn in H; congruence|discriminate]. Qed.
Lemma func_traceless n : traceless (do_func n).
Proof. intros i e e' o I. unfold do_func. destruct (in_unknown i); [intros H; congruence|]. destruct I as [T|]; [rewrite T; intros H; cbn in H; congruence|discriminate]. Qed.
Lemma instr_traceless n : traceless (do_instr n).
Proof. intros i e e' o _ H. unfold do_instr in H. congruence. Qed.
Lemma include_traceless (b : block settings code nat) : all traceless spoken b -> traceless (do_include (text b)).
Proof.
  intros A i e e' o I H. unfold do_include in H. destruct (in_true i) eqn:T; cbn [negb] in H; [|congruence]. destruct I as [|U]; [discriminate|].
  destruct (parse_seq (fuel_for (text b)) NoTerm (mkP [i] e (text b) false)) as [[os p]|] eqn:E; [|discriminate].
  assert (B : p_err p = false) by (destruct (p_err p); [cbn in H; congruence|reflexivity]).
  destruct (proj1 (reads_all settings code nat) b (proj1 (all_weaken settings code nat _ (fun _ => True) _ spoken (fun _ _ => Logic.I) (fun _ x => x)) b A)
    (fuel_for (text b)) NoTerm (mkP [i] e (text b) false) [] os p (eq_sym (app_nil_r _)) E B) as (f1 & os1 & os2 & _ & E2 & _ & _ & Tr).
  destruct (Tr (proj1 (all_weaken settings code nat _ traceless _ (fun _ => True) (fun _ x => x) (fun _ _ => Logic.I)) b A)) as [Tr1 _]. cbn [top p_stack hd p_env] in *.
  rewrite Tr1 in E2 by auto. destruct f1 as [|f1]; [discriminate|]. rewrite seq_eq in E2. cbn [p_rest] in E2. injection E2 as <- <-. cbn in H. congruence.
Qed.
