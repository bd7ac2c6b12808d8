(** Proofs about macros: arguments and definitions. *)

Require Import ZArith NArith Bool Lia String List.
From Verif Require Import ExprModel ParseModel ParseSpec ParseProofs SymModel ExpandModel ExpandProofs MacroModel MacroSpec.
Import ListNotations.
Local Open Scope string_scope.
Local Open Scope list_scope.

(** ** One argument *)
Definition before (a : list token) (r : option (list token * Z * list token)) : option (list token * Z * list token) :=
  match r with Some (a', d, rest) => Some (a ++ a', d, rest) | None => None end.
Lemma before_app : forall a b r, before (a ++ b) r = before a (before b r).
Proof. intros a b [[[c d] e]|]; cbn [before]; [rewrite app_assoc|]; reflexivity. Qed.

Lemma argument_cons : forall p b k t r, argument p b k (t :: r) =
  match t with
  | TSeparator => Some ([], p, t :: r)
  | TComma => if (p =? 0)%Z && (b =? 0)%Z && (k =? 0)%Z then Some ([], p, t :: r) else before [t] (argument p b k r)
  | TLParen => before [t] (argument (p + 1) b k r)
  | TRParen => before [t] (argument (p - 1) b k r)
  | TLBrace => before [t] (argument p (b + 1) k r)
  | TRBrace => before [t] (argument p (b - 1) k r)
  | TLBrack => before [t] (argument p b (k + 1) r)
  | TRBrack => before [t] (argument p b (k - 1) r)
  | _ => before [t] (argument p b k r)
  end.
Proof. intros p b k t r. destruct t; reflexivity. Qed.

Lemma text_argument : forall top a, text top a -> forall p b k ts,
  (0 <= p)%Z -> (0 <= b)%Z -> (0 <= k)%Z -> (top = false -> 0 < p + b + k)%Z ->
  argument p b k (a ++ ts) = before a (argument p b k ts).
Proof.
  induction 1 as [top|top t l Hb Hs Hc Hl IH|top a l Ha IHa Hl IHl|top a l Ha IHa Hl IHl|top a l Ha IHa Hl IHl];
    intros p b k ts Hp Hbb Hk Htop.
  - cbn [app]. destruct (argument p b k ts) as [[[x y] z]|]; reflexivity.
  - cbn [app]. rewrite argument_cons. specialize (IH p b k ts Hp Hbb Hk Htop).
    change (t :: l) with ([t] ++ l). rewrite before_app, <- IH.
    destruct t; try reflexivity; try (exfalso; apply Hb; cbn; tauto).
    + destruct top; [exfalso; apply Hc; reflexivity|].
      destruct ((p =? 0)%Z && (b =? 0)%Z && (k =? 0)%Z) eqn:E; [|reflexivity].
      apply andb_prop in E as [E E3]. apply andb_prop in E as [E1 E2]. specialize (Htop eq_refl). lia.
  - change (TLParen :: a ++ TRParen :: l) with ([TLParen] ++ a ++ [TRParen] ++ l).
    rewrite !before_app, <- !app_assoc. cbn [app]. rewrite argument_cons. f_equal.
    rewrite IHa by lia. f_equal. rewrite argument_cons. f_equal.
    replace (p + 1 - 1)%Z with p by lia. apply IHl; assumption.
  - change (TLBrace :: a ++ TRBrace :: l) with ([TLBrace] ++ a ++ [TRBrace] ++ l).
    rewrite !before_app, <- !app_assoc. cbn [app]. rewrite argument_cons. f_equal.
    rewrite IHa by lia. f_equal. rewrite argument_cons. f_equal.
    replace (b + 1 - 1)%Z with b by lia. apply IHl; assumption.
  - change (TLBrack :: a ++ TRBrack :: l) with ([TLBrack] ++ a ++ [TRBrack] ++ l).
    rewrite !before_app, <- !app_assoc. cbn [app]. rewrite argument_cons. f_equal.
    rewrite IHa by lia. f_equal. rewrite argument_cons. f_equal.
    replace (k + 1 - 1)%Z with k by lia. apply IHl; assumption.
Qed.

(** No comma of the tokens stands outside of brackets, given the depths in front. *)
Definition inside (p b k : Z) (a : list token) : Prop :=
  forall u v, a = u ++ TComma :: v -> ~ (p + round u = 0 /\ b + curly u = 0 /\ k + square u = 0)%Z.
Definition ends (p b k : Z) (rest : list token) : Prop :=
  match rest with TSeparator :: _ => True | TComma :: _ => (p = 0 /\ b = 0 /\ k = 0)%Z | _ => False end.

Ltac depths := unfold round, curly, square in *; cbn [depth] in *.

Lemma inside_cons : forall p b k t a, inside p b k (t :: a) <->
  (t = TComma -> ~ (p = 0 /\ b = 0 /\ k = 0)%Z) /\ inside (p + round [t]) (b + curly [t]) (k + square [t]) a.
Proof.
  intros p b k t a. split.
  - intros H. split.
    + intros ->. specialize (H [] a eq_refl). depths. lia.
    + intros u v ->. specialize (H (t :: u) v eq_refl). depths. intros (H1 & H2 & H3). apply H. lia.
  - intros [H1 H2] u v E. destruct u as [|t' u].
    + cbn [app] in E. injection E as -> <-. specialize (H1 eq_refl). depths. lia.
    + cbn [app] in E. injection E as <- E. specialize (H2 u v E). depths. intros (G1 & G2 & G3). apply H2. lia.
Qed.
Lemma depth_cons : forall t a, round (t :: a) = (round [t] + round a)%Z /\ curly (t :: a) = (curly [t] + curly a)%Z /\
  square (t :: a) = (square [t] + square a)%Z.
Proof. intros t a. depths. lia. Qed.

Lemma argument_step : forall p b k t r, t <> TSeparator -> (t = TComma -> ~ (p = 0 /\ b = 0 /\ k = 0)%Z) ->
  argument p b k (t :: r) = before [t] (argument (p + round [t]) (b + curly [t]) (k + square [t]) r).
Proof.
  intros p b k t r Hs Hc. rewrite argument_cons.
  destruct t; unfold round, curly, square; cbn [depth]; rewrite ?Z.add_0_r;
    try reflexivity; try congruence.
  destruct ((p =? 0)%Z && (b =? 0)%Z && (k =? 0)%Z) eqn:E; [|reflexivity].
  apply andb_prop in E as [E E3]. apply andb_prop in E as [E1 E2]. exfalso. apply (Hc eq_refl). lia.
Qed.
Lemma argument_stop : forall p b k t r, t = TSeparator \/ (t = TComma /\ p = 0 /\ b = 0 /\ k = 0)%Z ->
  argument p b k (t :: r) = Some ([], p, t :: r).
Proof. intros p b k t r [->|(-> & -> & -> & ->)]; reflexivity. Qed.

Lemma argument_iff : forall ts p b k a d rest, argument p b k ts = Some (a, d, rest) <->
  ts = a ++ rest /\ ~ In TSeparator a /\ d = (p + round a)%Z /\ inside p b k a /\
  ends (p + round a) (b + curly a) (k + square a) rest.
Proof.
  induction ts as [|t ts IH]; intros p b k a d rest.
  - split; [discriminate|]. intros (E & _ & _ & _ & He). destruct a, rest; try discriminate E. destruct He.
  - assert (Hdec : (t = TSeparator \/ (t = TComma /\ p = 0 /\ b = 0 /\ k = 0)%Z) \/
                   (t <> TSeparator /\ (t = TComma -> ~ (p = 0 /\ b = 0 /\ k = 0)%Z))).
    { destruct t; try (right; split; [discriminate|intros X; discriminate X]); [|left; left; reflexivity].
      destruct (Z.eq_dec p 0), (Z.eq_dec b 0), (Z.eq_dec k 0);
        try (right; split; [discriminate|]; lia). left. right. auto. }
    destruct Hdec as [Hstop|[Hs Hc]].
    + rewrite argument_stop by exact Hstop. split.
      * intros E. injection E as <- <- <-. split; [reflexivity|]. split; [intros []|]. split; [depths; lia|].
        split; [intros u v E; destruct u; discriminate E|].
        destruct Hstop as [->|(-> & -> & -> & ->)]; depths; cbn [ends]; [exact I|lia].
      * intros (E & Hn & -> & Hi & He). destruct a as [|t' a].
        { cbn [app] in E. subst rest. depths. f_equal. f_equal. f_equal. lia. }
        cbn [app] in E. injection E as <- ->. exfalso. destruct Hstop as [->|(-> & Hz)].
        { apply Hn. left. reflexivity. }
        apply inside_cons in Hi as [Hi _]. apply (Hi eq_refl Hz).
    + rewrite argument_step by assumption. split.
      * intros E. destruct (argument _ _ _ ts) as [[[a' d'] rest']|] eqn:Ea; [|discriminate E].
        cbn [before app] in E. injection E as <- <- <-.
        apply IH in Ea as (-> & Hn & -> & Hi & He).
        destruct (depth_cons t a') as (D1 & D2 & D3). rewrite D1, D2, D3, !Z.add_assoc.
        split; [reflexivity|]. split; [intros [X|X]; [congruence|exact (Hn X)]|]. split; [reflexivity|].
        split; [apply inside_cons; split; assumption|exact He].
      * intros (E & Hn & -> & Hi & He). destruct a as [|t' a].
        { cbn [app] in E. subst rest. exfalso. depths. rewrite !Z.add_0_r in He. unfold ends in He.
          destruct t; try contradiction. exact (Hc eq_refl He). }
        cbn [app] in E. injection E as <- ->.
        destruct (depth_cons t a) as (D1 & D2 & D3). rewrite D1, D2, D3, !Z.add_assoc in He.
        apply inside_cons in Hi as [_ Hi].
        assert (Ea : argument (p + round [t]) (b + curly [t]) (k + square [t]) (a ++ rest) =
                     Some (a, (p + round [t] + round a)%Z, rest)).
        { apply IH. split; [reflexivity|]. split; [intros X; apply Hn; right; exact X|]. auto. }
        rewrite Ea, D1, !Z.add_assoc. reflexivity.
Qed.

Lemma extract_iff : forall ts a rest, extract ts = Fine (a, rest) <->
  ts = a ++ rest /\ counted a /\ ends 0 (curly a) (square a) rest.
Proof.
  intros ts a rest. unfold extract. split.
  - destruct (argument 0 0 0 ts) as [[[a' d] rest']|] eqn:E; [|discriminate].
    destruct (negb (d =? 0)%Z) eqn:Ed; [discriminate|].
    destruct a' as [|t a']; [discriminate|]. intros X. injection X as <- <-.
    apply argument_iff in E as (-> & Hn & Hd & Hi & He). split; [reflexivity|].
    assert (Hr : round (t :: a') = 0%Z) by (apply negb_false_iff in Ed; lia).
    split; [|rewrite !Z.add_0_l, Hr in He; exact He].
    split; [discriminate|]. split; [exact Hn|]. split; [exact Hr|].
    intros u v Eu (H1 & H2 & H3). apply (Hi u v Eu). lia.
  - intros (-> & (Hne & Hn & Hr & Hi) & He).
    assert (E : argument 0 0 0 (a ++ rest) = Some (a, (0 + round a)%Z, rest)).
    { apply argument_iff. split; [reflexivity|]. split; [exact Hn|]. split; [reflexivity|]. split.
      - intros u v Eu (H1 & H2 & H3). apply (Hi u v Eu). lia.
      - rewrite !Z.add_0_l, Hr. exact He. }
    rewrite E, Hr. cbn [Z.add Z.eqb negb]. destruct a; [congruence|reflexivity].
Qed.

(** ** The arguments of a call *)
Definition commas (first : bool) (l : list (list token)) : list token :=
  match l with [] => [] | a :: l => (if first then [] else [TComma]) ++ a ++ flat_map (fun b => TComma :: b) l end.
Lemma commas_separated : forall l, commas true l = separated l.
Proof.
  destruct l as [|a l]; [reflexivity|]. cbn [commas app]. revert a. induction l as [|b l IH]; intros a; [apply app_nil_r|].
  change (separated (a :: b :: l)) with (a ++ TComma :: separated (b :: l)). rewrite <- IH. reflexivity.
Qed.

Definition stops (rest : list token) : Prop := exists r, rest = TSeparator :: r \/ rest = TComma :: r.

Lemma arguments_cons : forall p params first ts, arguments (p :: params) first ts =
  match peek ts with
  | TSeparator => Wrong "Too few macro arguments"
  | t =>
    let next := fun ts =>
      match extract ts with
      | Fine (a, rest) =>
        match arguments params false rest with Fine (l, rest) => Fine (a :: l, rest) | Wrong m => Wrong m | Endless => Endless end
      | Wrong m => Wrong m
      | Endless => Endless
      end in
    if first then next ts
    else match t with TComma => next (tl ts) | _ => Wrong "Macro arguments not comma-separated" end
  end.
Proof. reflexivity. Qed.

Definition last_closed (l : list (list token)) : Prop := forall l' a, l = l' ++ [a] -> closed a.

Lemma counted_no_separator : forall a, counted a -> exists t r, a = t :: r /\ t <> TSeparator.
Proof.
  intros [|t r] (H & Hn & _); [congruence|]. exists t, r. split; [reflexivity|]. intros ->. apply Hn. left. reflexivity.
Qed.
Lemma ends_closed : forall b k rest, ends 0 b k (TComma :: rest) <-> (b = 0 /\ k = 0)%Z.
Proof. intros b k rest. cbn [ends]. lia. Qed.

Lemma arguments_iff : forall params first ts l rest,
  (forall r, first = false -> ts = r -> stops r) ->
  arguments params first ts = Fine (l, rest) <->
  List.length l = List.length params /\ ordered l /\ ts = commas first l ++ rest /\
  (l <> [] -> stops rest /\ (forall r, rest = TComma :: r -> last_closed l)).
Proof.
  induction params as [|p params IH]; intros first ts l rest Hts.
  - cbn [arguments]. split.
    + intros E. injection E as <- <-. repeat split; congruence.
    + intros (Hl & _ & -> & _). destruct l; [reflexivity|discriminate Hl].
  - rewrite arguments_cons.
    assert (Hnext : forall ts, match extract ts with
        | Fine (a, rest) =>
          match arguments params false rest with Fine (l, rest) => Fine (a :: l, rest) | Wrong m => Wrong m | Endless => Endless end
        | Wrong m => Wrong m
        | Endless => Endless
        end = Fine (l, rest) <->
        exists a l', l = a :: l' /\ List.length l' = List.length params /\ ordered l /\
          ts = commas true l ++ rest /\ stops rest /\ (forall r, rest = TComma :: r -> last_closed l)).
    { clear ts Hts. intros ts. split.
      - destruct (extract ts) as [m| |[a ts1]] eqn:Ee; try discriminate.
        apply extract_iff in Ee as (-> & Ha & He).
        assert (Hst : stops ts1).
        { destruct ts1 as [|t r]; [destruct He|]. destruct t; try destruct He; exists r; auto. }
        destruct (arguments params false ts1) as [m| |[l' rest']] eqn:Er; try discriminate.
        intros E. injection E as <- <-.
        apply IH in Er as (Hl & Ho & -> & Hst'); [|intros r _ <-; exact Hst].
        exists a, l'. split; [reflexivity|]. split; [exact Hl|].
        destruct l' as [|a2 l'].
        + cbn [commas app] in *. split; [exact Ha|]. split; [rewrite app_nil_r; reflexivity|].
          split; [exact Hst|]. intros r ->. intros l0 a0 E. destruct l0 as [|x [|? ?]]; try discriminate E.
          injection E as <-. apply ends_closed in He. exact He.
        + destruct (Hst' ltac:(discriminate)) as [H1 H2].
          cbn [commas app] in He. apply ends_closed in He.
          split; [split; [exact Ha|split; [exact He|exact Ho]]|]. split.
          { cbn [commas app flat_map]. rewrite <- !app_assoc. cbn [app]. rewrite <- ?app_assoc. reflexivity. }
          split; [exact H1|]. intros r Er l0 a0 E. destruct l0 as [|x l0]; [discriminate E|].
          cbn [app] in E. injection E as <- E. exact (H2 r Er l0 a0 E).
      - intros (a & l' & -> & Hl & Ho & -> & Hst & Hlast). cbn [commas app].
        assert (Ha : counted a) by (destruct l'; [exact Ho|exact (proj1 Ho)]).
        assert (Ec : commas false l' = flat_map (fun b => TComma :: b) l').
        { destruct l'; reflexivity. }
        assert (Ee : extract (a ++ commas false l' ++ rest) = Fine (a, commas false l' ++ rest)).
        { apply extract_iff. split; [reflexivity|]. split; [exact Ha|].
          destruct l' as [|a2 l'].
          - cbn [commas app]. destruct Hst as [r [-> | ->]]; [exact I|]. apply ends_closed.
            apply (Hlast r eq_refl [] a). reflexivity.
          - destruct Ho as (_ & Hc & _). cbn [commas app]. apply ends_closed. exact Hc. }
        rewrite <- app_assoc, <- Ec, Ee.
        assert (Er : arguments params false (commas false l' ++ rest) = Fine (l', rest)).
        { apply IH.
          - intros r _ <-. destruct l' as [|a2 l']; [exact Hst|]. cbn [commas app]. eexists. right. reflexivity.
          - split; [exact Hl|]. split; [destruct l'; [exact I|exact (proj2 (proj2 Ho))]|]. split; [reflexivity|].
            intros Hne. split; [exact Hst|]. intros r Er l0 a0 E. apply (Hlast r Er (a :: l0) a0). cbn [app]. rewrite E. reflexivity. }
        rewrite Er. reflexivity. }
    destruct first.
    + (* the first argument *)
      assert (Eq : match peek ts with TSeparator => Wrong "Too few macro arguments"
                   | _ => match extract ts with
                      | Fine (a, rest) =>
                        match arguments params false rest with Fine (l, rest) => Fine (a :: l, rest) | Wrong m => Wrong m | Endless => Endless end
                      | Wrong m => Wrong m
                      | Endless => Endless
                      end end = Fine (l, rest) <->
                   exists a l', l = a :: l' /\ List.length l' = List.length params /\ ordered l /\
                     ts = commas true l ++ rest /\ stops rest /\ (forall r, rest = TComma :: r -> last_closed l)).
      { destruct (peek ts) eqn:Ep; try apply Hnext. split; [discriminate|].
        intros (a & l' & -> & _ & Ho & -> & _).
        assert (Ha : counted a) by (destruct l'; [exact Ho|exact (proj1 Ho)]).
        destruct (counted_no_separator a Ha) as (t & r & -> & Ht). cbn in Ep. congruence. }
      cbv zeta. etransitivity; [exact Eq|]. split.
      * intros (a & l' & -> & Hl & Ho & E & H1 & H2). cbn [List.length]. split; [congruence|]. split; [exact Ho|]. split; [exact E|]. auto.
      * intros (Hl & Ho & E & H). destruct l as [|a l']; [discriminate Hl|]. cbn [List.length] in Hl.
        destruct (H ltac:(discriminate)) as [H1 H2]. exists a, l'. split; [reflexivity|]. split; [congruence|]. auto.
    + destruct (Hts ts eq_refl eq_refl) as [r [-> | ->]]; cbn [peek tl]; cbv zeta.
      * split; [discriminate|]. intros (Hl & _ & E & _). destruct l as [|a l']; [discriminate Hl|]. discriminate E.
      * etransitivity; [apply Hnext|]. split.
        -- intros (a & l' & -> & Hl & Ho & -> & H1 & H2). cbn [List.length]. split; [congruence|]. split; [exact Ho|].
           split; [reflexivity|]. auto.
        -- intros (Hl & Ho & E & H). destruct l as [|a l']; [discriminate Hl|]. cbn [List.length] in Hl.
           destruct (H ltac:(discriminate)) as [H1 H2]. exists a, l'. cbn [commas app] in E. injection E as ->.
           split; [reflexivity|]. split; [congruence|]. auto.
Qed.

Lemma call_arguments_iff : forall params ts l rest, call_arguments params ts = Fine (l, rest) <->
  List.length l = List.length params /\ ordered l /\ ts = separated l ++ TSeparator :: rest.
Proof.
  intros params ts l rest. unfold call_arguments. rewrite <- commas_separated. split.
  - destruct (arguments params true ts) as [m| |[l' ts']] eqn:E; try discriminate.
    apply arguments_iff in E; [|discriminate]. destruct E as (Hl & Ho & -> & _).
    destruct ts' as [|t ts']; [discriminate|]. destruct t; try discriminate.
    + destruct (superfluous _ _); discriminate.
    + intros X. injection X as <- <-. auto.
  - intros (Hl & Ho & ->).
    assert (E : arguments params true (commas true l ++ TSeparator :: rest) = Fine (l, TSeparator :: rest)).
    { apply arguments_iff; [discriminate|]. split; [exact Hl|]. split; [exact Ho|]. split; [reflexivity|].
      intros _. split; [exists rest; left; reflexivity|discriminate]. }
    rewrite E. reflexivity.
Qed.

(** Nested arguments are counted and closed. *)
Lemma text_counted : forall a, a <> [] -> text true a -> counted a /\ closed a.
Proof.
  intros a Hne Ht.
  pose proof (text_argument true a Ht 0 0 0 [TComma] ltac:(lia) ltac:(lia) ltac:(lia) ltac:(discriminate)) as E.
  assert (E2 : argument 0 0 0 [TComma] = Some ([], 0%Z, [TComma])) by reflexivity.
  rewrite E2 in E. cbn [before] in E. rewrite app_nil_r in E. apply argument_iff in E as (_ & Hn & Hd & Hi & He).
  cbn [ends] in He. rewrite !Z.add_0_l in *. split; [|unfold closed; tauto].
  split; [exact Hne|]. split; [exact Hn|]. split; [symmetry; exact Hd|].
  intros u v Eu (H1 & H2 & H3). apply (Hi u v Eu). lia.
Qed.
Lemma nested_ordered : forall l, Forall (fun a => a <> [] /\ text true a) l -> ordered l.
Proof.
  induction 1 as [|a l [H1 H2] Hl IH]; [exact I|]. destruct (text_counted a H1 H2) as [Hc Hd].
  destruct l; [exact Hc|]. split; [exact Hc|]. split; [exact Hd|exact IH].
Qed.
Lemma nested_arguments : forall params l rest, List.length l = List.length params -> Forall (fun a => a <> [] /\ text true a) l ->
  call_arguments params (separated l ++ TSeparator :: rest) = Fine (l, rest).
Proof. intros params l rest Hl H. apply call_arguments_iff. split; [exact Hl|]. split; [apply nested_ordered, H|reflexivity]. Qed.

(** ** Calls without an end *)
Lemma argument_ends : forall ts p b k, In TSeparator ts -> exists a d rest, argument p b k ts = Some (a, d, rest) /\ In TSeparator rest.
Proof.
  induction ts as [|t ts IH]; intros p b k H; [destruct H|].
  assert (Hdec : (t = TSeparator \/ (t = TComma /\ p = 0 /\ b = 0 /\ k = 0)%Z) \/
                 (t <> TSeparator /\ (t = TComma -> ~ (p = 0 /\ b = 0 /\ k = 0)%Z))).
  { destruct t; try (right; split; [discriminate|intros X; discriminate X]); [|left; left; reflexivity].
    destruct (Z.eq_dec p 0), (Z.eq_dec b 0), (Z.eq_dec k 0); try (right; split; [discriminate|]; lia). left. right. auto. }
  destruct Hdec as [Hs|[Hs Hc]].
  - rewrite argument_stop by exact Hs. eauto.
  - rewrite argument_step by assumption. destruct H as [H|H]; [congruence|].
    destruct (IH (p + round [t])%Z (b + curly [t])%Z (k + square [t])%Z H) as (a & d & rest & -> & Hr).
    cbn [before app]. eauto.
Qed.
Lemma superfluous_ends : forall fuel ts, In TSeparator ts -> superfluous fuel ts = true.
Proof.
  induction fuel as [|fuel IH]; intros ts H; [reflexivity|]. cbn [superfluous]. destruct ts as [|t ts]; [reflexivity|].
  destruct t; try reflexivity. destruct H as [H|H]; [discriminate H|].
  destruct (argument_ends ts 0 0 0 H) as (a & d & rest & -> & Hr). apply IH, Hr.
Qed.
Lemma arguments_ends : forall params first ts, In TSeparator ts ->
  match arguments params first ts with Endless => False | Wrong _ => True | Fine (_, rest) => In TSeparator rest end.
Proof.
  induction params as [|p params IH]; intros first ts H; [exact H|]. rewrite arguments_cons.
  assert (Hnext : forall ts, In TSeparator ts -> match (match extract ts with
        | Fine (a, rest) =>
          match arguments params false rest with Fine (l, rest) => Fine (a :: l, rest) | Wrong m => Wrong m | Endless => Endless end
        | Wrong m => Wrong m
        | Endless => Endless
        end) with Endless => False | Wrong _ => True | Fine (_, rest) => In TSeparator rest end).
  { clear ts H. intros ts H. unfold extract. destruct (argument_ends ts 0 0 0 H) as (a & d & rest & -> & Hr).
    destruct (negb (d =? 0)%Z); [exact I|]. destruct a; [exact I|]. specialize (IH false rest Hr).
    destruct (arguments params false rest) as [m| |[l r]]; exact IH. }
  cbv zeta. destruct first.
  - destruct (peek ts); try (apply Hnext; exact H). exact I.
  - destruct (peek ts) eqn:Ep; try exact I.
    apply Hnext. destruct ts as [|t ts]; [destruct H|]. cbn [peek] in Ep. subst t. destruct H as [H|H]; [discriminate H|exact H].
Qed.
Lemma call_ends : forall params ts, In TSeparator ts -> call_arguments params ts <> Endless.
Proof.
  intros params ts H. unfold call_arguments. pose proof (arguments_ends params true ts H) as Ha.
  destruct (arguments params true ts) as [m| |[l rest]]; [discriminate|destruct Ha|].
  destruct rest as [|t rest]; [discriminate|]. destruct t; try discriminate.
  rewrite superfluous_ends by exact Ha. discriminate.
Qed.
