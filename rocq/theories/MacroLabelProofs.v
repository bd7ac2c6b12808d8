(** Proofs about macros: definitions, the content in calls, labels. *)

Require Import ZArith NArith Bool Lia String List.
From Verif Require Import ExprModel ParseModel ParseSpec ParseProofs SymModel ExpandModel ExpandProofs MacroModel MacroSpec.
Import ListNotations.
Local Open Scope string_scope.
Local Open Scope list_scope.

(** ** Definitions *)
Lemma gram_up : forall isfun file section k n ts e, (n + k <= 12)%nat -> gram isfun file section n ts e ->
  gram isfun file section (k + n) ts e.
Proof.
  intros isfun file section k n ts e Hk H. induction k as [|k IH]; [exact H|]. cbn [Nat.add].
  apply g_up; [lia|]. apply IH. lia.
Qed.
Lemma header_cons : forall n m ns, header (n :: m :: ns) = TIdent n :: TComma :: header (m :: ns).
Proof. reflexivity. Qed.

Lemma expressions_header : forall isfun file section ns fuel rest, ns <> [] -> ~ In "." ns -> (List.length ns <= fuel)%nat ->
  expressions isfun file section fuel (header ns ++ TSeparator :: rest) =
  Some (map (fun n => EIdent n file section) ns, TSeparator :: rest).
Proof.
  intros isfun file section. induction ns as [|n ns IH]; intros fuel rest Hne Hdot Hf; [congruence|].
  destruct fuel as [|fuel]; [cbn in Hf; lia|]. cbn [expressions].
  assert (Hn : n <> ".") by (intros ->; apply Hdot; left; reflexivity).
  assert (Hg : gram isfun file section 12 [TIdent n] (EIdent n file section)).
  { apply (gram_up isfun file section 12 0); [lia|]. apply g_ident. exact Hn. }
  destruct ns as [|m ns].
  - change (header [n] ++ TSeparator :: rest) with ([TIdent n] ++ TSeparator :: rest).
    rewrite (grammar_parsed isfun file section _ _ (TSeparator :: rest) Hg eq_refl). reflexivity.
  - rewrite header_cons.
    change ((TIdent n :: TComma :: header (m :: ns)) ++ TSeparator :: rest) with
      ([TIdent n] ++ TComma :: (header (m :: ns) ++ TSeparator :: rest)).
    rewrite (grammar_parsed isfun file section _ _ (TComma :: (header (m :: ns) ++ TSeparator :: rest)) Hg eq_refl).
    rewrite IH; [reflexivity|discriminate| |cbn [List.length] in *; lia].
    intros H. apply Hdot. right. exact H.
Qed.
Lemma identifiers_map : forall file section ns, identifiers (map (fun n => EIdent n file section) ns) = Some ns.
Proof. induction ns as [|n ns IH]; [reflexivity|]. cbn [map identifiers]. rewrite IH. reflexivity. Qed.

Lemma is_name_iff : forall n t, is_name n t = true <-> t = TIdent n.
Proof.
  intros n t. destruct t; cbn [is_name]; try (split; discriminate). rewrite String.eqb_eq. split; congruence.
Qed.
Lemma content_iff : forall ts c rest, content ts = Some (c, rest) <->
  ts = c ++ TIdent ".endmacro" :: rest /\ ~ In (TIdent ".endmacro") c.
Proof.
  induction ts as [|t ts IH]; intros c rest; cbn [content].
  - split; [discriminate|]. intros [E _]. destruct c; discriminate E.
  - destruct (is_name ".endmacro" t) eqn:E.
    + apply is_name_iff in E. subst t. split.
      * intros X. injection X as <- <-. split; [reflexivity|intros []].
      * intros [X Hn]. destruct c as [|t' c]; cbn [app] in X.
        { injection X as ->. reflexivity. }
        injection X as X1 X2. exfalso. apply Hn. left. symmetry. exact X1.
    + destruct (content ts) as [[c' rest']|] eqn:Ec.
      * split.
        -- intros X. injection X as <- <-. destruct (proj1 (IH c' rest') eq_refl) as [-> Hn]. split; [reflexivity|]. intros [X|X]; [|exact (Hn X)].
           apply is_name_iff in X. congruence.
        -- intros [X Hn]. destruct c as [|t' c]; cbn [app] in X; injection X as X1 X2.
           { subst t. discriminate E. }
           subst t'. assert (H : Some (c', rest') = Some (c, rest)).
           { apply IH. split; [exact X2|]. intros Y. apply Hn. right. exact Y. }
           injection H as -> ->. reflexivity.
      * split; [discriminate|]. intros [X Hn]. destruct c as [|t' c]; cbn [app] in X; injection X as X1 X2.
        { subst t. discriminate E. }
        assert (H : None = Some (c, rest)); [|discriminate H].
        apply IH. split; [exact X2|]. intros Y. apply Hn. right. exact Y.
Qed.

Lemma define_iff : forall isfun file section in_unknown in_true known n ps body m rest, ~ In "." (n :: ps) ->
  define isfun file section false in_unknown in_true known (header (n :: ps) ++ TSeparator :: body) = DAdded m rest <->
  in_unknown = false /\ in_true = true /\ known n = false /\
  exists c, body = c ++ TIdent ".endmacro" :: TSeparator :: rest /\ ~ In (TIdent ".endmacro") c /\ m = mkMacro n ps c [] 0.
Proof.
  intros isfun file section in_unknown in_true known n ps body m rest Hdot. unfold define.
  rewrite expressions_header; [|discriminate|exact Hdot|].
  2: { rewrite app_length. assert (H : forall ns, (List.length ns <= List.length (header ns))%nat).
       { induction ns as [|a [|b ns] IH]; [cbn; lia|cbn; lia|]. rewrite header_cons. cbn [List.length] in *. lia. }
       specialize (H (n :: ps)). lia. }
  rewrite identifiers_map.
  destruct in_unknown; [split; [discriminate|intros [X _]; discriminate X]|].
  destruct in_true; [|split; [discriminate|intros (_ & X & _); discriminate X]].
  cbn [negb]. destruct (known n); [split; [discriminate|intros (_ & _ & X & _); discriminate X]|].
  destruct (content body) as [[c r]|] eqn:E.
  - apply content_iff in E as [-> Hn]. split.
    + intros X. destruct r as [|t r]; [discriminate X|]. destruct t; try discriminate X. injection X as <- <-.
      repeat (split; [reflexivity|]). exists c. auto.
    + intros (_ & _ & _ & c' & X & Hn' & ->).
      assert (H : content (c ++ TIdent ".endmacro" :: r) = Some (c', TSeparator :: rest)) by (apply content_iff; auto).
      rewrite (proj2 (content_iff _ c r) (conj eq_refl Hn)) in H. injection H as -> ->. reflexivity.
  - split; [discriminate|]. intros (_ & _ & _ & c & X & Hn & _).
    assert (H : content body = Some (c, TSeparator :: rest)) by (apply content_iff; auto). congruence.
Qed.

(** ** Replacement *)
Definition sub (reps : list (string * list token)) (t : token) : list token :=
  match t with TIdent x => match find_replacement x reps with Some v => v | None => [t] end | _ => [t] end.
Definition no_equ (x : string) : option (list token) := None.

Section Replace.
  Variable reps : list (string * list token).
  Hypothesis reps_ok : forall x v, find_replacement x reps = Some v ->
    v <> [] /\ forall y, In (TIdent y) (tl v) -> find_replacement y reps = None.
  Let e := mkEnv reps no_equ.
  Let never (t : token) := false.

  Lemma cut_never : forall o, cut never o = o.
  Proof. induction o as [|t o IH]; [reflexivity|]. cbn [cut]. unfold never at 1. rewrite IH. reflexivity. Qed.

  Lemma drains_sub : forall ts, drains e never (unchecked ts) (flat_map (sub reps) ts).
  Proof.
    assert (Hplain : forall t r o, (forall x, t = TIdent x -> find_replacement x reps = None) ->
              drains e never r o -> drains e never ((t, false) :: r) (t :: o)).
    { intros t r o Ht Hr. apply drains_plain; [|exact Hr]. intros x Hx. split; [exact (Ht x Hx)|reflexivity]. }
    assert (Hlist : forall v r o, (forall y, In (TIdent y) v -> find_replacement y reps = None) ->
              drains e never r o -> drains e never (unchecked v ++ r) (v ++ o)).
    { intros v r o Hv Hr. apply drains_plain_list; [|exact Hr]. intros y Hy. split; [exact (Hv y Hy)|reflexivity]. }
    induction ts as [|t ts IH]; [apply drains_nil|]. cbn [unchecked map flat_map]. fold (unchecked ts).
    destruct t; cbn [sub app]; try (apply Hplain; [intros x X; discriminate X|exact IH]).
    destruct (find_replacement n reps) as [v|] eqn:Ex.
    2: { apply (Hplain (TIdent n)); [|exact IH]. intros x Hx. injection Hx as <-. exact Ex. }
    destruct (reps_ok n v Ex) as [Hne Hv]. destruct v as [|v0 vs]; [congruence|]. cbn [tl app] in *.
    destruct (is_ident v0) as [y|] eqn:E.
    - assert (v0 = TIdent y) by (destruct v0; cbn in E; congruence). subst v0.
      eapply (drains_deliver _ _ _ (TIdent y) true (unchecked vs ++ unchecked ts) _ 1).
      + rewrite process_S. cbn [is_ident e e_replacements e_equ]. rewrite Ex. cbn [is_ident]. reflexivity.
      + apply Hlist; assumption.
    - eapply drains_step with (l' := (v0, false) :: unchecked vs ++ unchecked ts).
      + intros fuel. rewrite process_S. cbn [is_ident e e_replacements e_equ]. rewrite Ex, E. reflexivity.
      + apply Hplain; [intros x ->; discriminate E|]. apply Hlist; assumption.
  Qed.
  Lemma delivers_iff : forall ts o, delivers no_equ reps ts o <-> o = flat_map (sub reps) ts.
  Proof.
    intros ts o. destruct (drains_sub ts) as [f Hf]. rewrite cut_never in Hf. split.
    - intros [g Hg].
      assert (H1 : drain (f + g) e never (unchecked ts) = DDone (flat_map (sub reps) ts))
        by (apply drain_le with (f := f); [exact Hf|discriminate|lia]).
      assert (H2 : drain (f + g) e never (unchecked ts) = DDone o)
        by (apply drain_le with (f := g); [exact Hg|discriminate|lia]).
      congruence.
    - intros ->. exists f. exact Hf.
  Qed.
End Replace.

Lemma find_app : forall x a b, find_replacement x (a ++ b) =
  match find_replacement x a with Some v => Some v | None => find_replacement x b end.
Proof.
  induction a as [|[y v] a IH]; intros b; [reflexivity|]. cbn [app find_replacement]. destruct (String.eqb y x); [reflexivity|apply IH].
Qed.
Lemma find_combine : forall params args x, find_replacement x (combine params args) = bound params args x.
Proof.
  induction params as [|p params IH]; intros [|a args] x; try reflexivity.
  cbn [combine find_replacement bound]. destruct (String.eqb p x); [reflexivity|apply IH].
Qed.
Lemma bound_in : forall params args x v, bound params args x = Some v -> In x params /\ In v args.
Proof.
  induction params as [|p params IH]; intros [|a args] x v H; try discriminate H. cbn [bound] in H.
  destruct (String.eqb p x) eqn:E.
  - apply String.eqb_eq in E. injection H as <-. subst p. split; left; reflexivity.
  - destruct (IH _ _ _ H). split; right; assumption.
Qed.
Lemma bound_some : forall params args x, List.length args = List.length params -> In x params -> exists v, bound params args x = Some v.
Proof.
  induction params as [|p params IH]; intros [|a args] x Hl H; try destruct H; try discriminate Hl; cbn [bound].
  - subst p. rewrite String.eqb_refl. eauto.
  - destruct (String.eqb p x); [eauto|]. apply IH; [cbn in Hl; congruence|assumption].
Qed.
Lemma find_labels : forall m labs args x, find_replacement x (label_replacements m labs args) =
  if mem x labs && negb (mem x (single_names args)) then Some [TIdent (macro_label_name (m_name m) x (m_counter m))] else None.
Proof.
  intros m labs args x. unfold label_replacements. induction labs as [|l labs IH]; [reflexivity|].
  cbn [filter]. destruct (mem l (single_names args)) eqn:E; cbn [negb map find_replacement].
  - rewrite IH. cbn [mem existsb]. destruct (String.eqb x l) eqn:Ex; [|reflexivity].
    apply String.eqb_eq in Ex. subst l. rewrite E, !andb_false_r. reflexivity.
  - cbn [mem existsb]. rewrite String.eqb_sym. destruct (String.eqb x l) eqn:Ex.
    + apply String.eqb_eq in Ex. subst l. rewrite E. reflexivity.
    + rewrite IH. reflexivity.
Qed.
Lemma mem_iff : forall x l, mem x l = true <-> In x l.
Proof.
  intros x l. unfold mem. rewrite existsb_exists. split.
  - intros (y & H & E). apply String.eqb_eq in E. subst y. exact H.
  - intros H. exists x. split; [exact H|apply String.eqb_refl].
Qed.
Lemma single_iff : forall x args, In x (single_names args) <-> In [TIdent x] args.
Proof.
  intros x args. unfold single_names. rewrite in_flat_map. split.
  - intros (a & Ha & H). destruct a as [|t [|? ?]]; try destruct H; destruct t; try destruct H; try contradiction.
    subst. exact Ha.
  - intros H. exists [TIdent x]. split; [exact H|left; reflexivity].
Qed.

(** ** Labels *)
Lemma labels_cons : forall start t r, labels start (t :: r) =
  match t with
  | TSeparator => labels true r
  | TIdent x => match r with TColon :: r' => if start then x :: labels true r' else labels false r' | _ => labels false r end
  | _ => labels false r
  end.
Proof. intros start t r. destruct t; reflexivity. Qed.

Lemma at_start_weaken : forall b u, at_start b u -> at_start true u.
Proof.
  intros b u H. inversion H; subst; [constructor|constructor; assumption|constructor; assumption|apply start_other; assumption].
Qed.
Lemma labels_iff : forall n c b x, (List.length c <= n)%nat ->
  In x (labels b c) <-> exists u v, c = u ++ TIdent x :: TColon :: v /\ at_start b u.
Proof.
  induction n as [|n IH]; intros c b x Hn.
  - destruct c; [|cbn in Hn; lia]. split; [intros []|]. intros (u & v & E & _). destruct u; discriminate E.
  - destruct c as [|t c]; [split; [intros []|]; intros (u & v & E & _); destruct u; discriminate E|].
    cbn [List.length] in Hn. rewrite labels_cons.
    assert (Hother : forall t, t <> TSeparator -> (forall y r, t = TIdent y -> c = TColon :: r -> False) ->
              (exists u v, c = u ++ TIdent x :: TColon :: v /\ at_start false u) <->
              (exists u v, t :: c = u ++ TIdent x :: TColon :: v /\ at_start b u)).
    { clear t. intros t Ht Hc. split.
      - intros (u & v & -> & Hu). exists (t :: u), v. split; [reflexivity|]. apply start_other; assumption.
      - intros (u & v & E & Hu). destruct u as [|t' u]; cbn [app] in E.
        + exfalso. injection E as -> ->. eapply Hc; reflexivity.
        + injection E as <- ->. exists u, v. split; [reflexivity|]. inversion Hu; subst.
          * congruence.
          * exfalso. eapply Hc; reflexivity.
          * assumption. }
    destruct t;
      try (etransitivity; [apply IH; lia|apply Hother; [discriminate|intros y r X; discriminate X]]).
    + (* a name *)
      destruct c as [|t c]; [split; [intros []|]; intros (u & v & E & _); destruct u as [|? [|? ?]]; discriminate E|].
      assert (Hc : t = TColon \/ t <> TColon) by (destruct t; auto; right; discriminate).
      destruct Hc as [->|Hc].
      * cbn [List.length] in Hn. destruct b.
        -- split.
           ++ intros [->|H]; [exists [], c; split; [reflexivity|constructor]|].
              apply IH in H; [|lia]. destruct H as (u & v & -> & Hu). exists (TIdent n0 :: TColon :: u), v.
              split; [reflexivity|]. constructor. exact Hu.
           ++ intros (u & v & E & Hu). destruct u as [|t1 [|t2 u]]; cbn [app] in E; [injection E as -> _; left; reflexivity|discriminate E|].
              injection E as <- <- ->. right. apply IH; [lia|]. exists u, v. split; [reflexivity|].
              inversion Hu; subst; [assumption|]. match goal with H : at_start false (TColon :: _) |- _ => inversion H; subst end.
              eapply at_start_weaken; eassumption.
        -- split.
           ++ intros H. apply IH in H; [|lia]. destruct H as (u & v & -> & Hu). exists (TIdent n0 :: TColon :: u), v.
              split; [reflexivity|]. apply start_other; [discriminate|]. apply start_other; [discriminate|exact Hu].
           ++ intros (u & v & E & Hu). destruct u as [|t1 [|t2 u]]; cbn [app] in E; [inversion Hu|discriminate E|].
              injection E as <- <- ->. apply IH; [lia|]. exists u, v. split; [reflexivity|].
              inversion Hu; subst. match goal with H : at_start false (TColon :: _) |- _ => inversion H; subst end. assumption.
      * assert (E : match t with TColon => if b then n0 :: labels true c else labels false c | _ => labels false (t :: c) end = labels false (t :: c))
          by (destruct t; congruence).
        etransitivity; [|apply Hother; [discriminate|intros y r _ X; injection X as X _; congruence]].
        rewrite <- IH by lia. rewrite E. reflexivity.
    + (* a separator *)
      rewrite IH by lia. split.
      * intros (u & v & -> & Hu). exists (TSeparator :: u), v. split; [reflexivity|]. constructor. exact Hu.
      * intros (u & v & E & Hu). destruct u as [|t' u]; cbn [app] in E; [discriminate E|]. injection E as <- ->.
        exists u, v. split; [reflexivity|]. inversion Hu; subst; [assumption|congruence].
Qed.
Lemma declares_iff : forall c x, declares c x <-> In x (labels true c).
Proof. intros c x. unfold declares. symmetry. apply (labels_iff (List.length c)). lia. Qed.

(** The labels of the content after the parameters are replaced. *)
Definition no_colon (a : list token) : Prop := a <> [] /\ ~ In TColon a /\ ~ In TSeparator a.
Lemma labels_false_app : forall v r, ~ In TColon v -> ~ In TSeparator v -> v <> [] ->
  (forall r', r <> TColon :: r') -> forall b, labels b (v ++ r) = labels false r.
Proof.
  induction v as [|t v IH]; intros r Hc Hs Hne Hr b; [congruence|]. cbn [app]. rewrite labels_cons.
  assert (Hrest : labels false (v ++ r) = labels false r).
  { destruct v as [|t' v]; [reflexivity|]. apply IH; [intros X; apply Hc; right; exact X|intros X; apply Hs; right; exact X|discriminate|exact Hr]. }
  destruct t; try exact Hrest.
  - destruct v as [|t' v]; cbn [app] in *.
    + destruct r as [|t r]; [reflexivity|]. destruct t; try reflexivity. exfalso. eapply Hr. reflexivity.
    + destruct t'; try exact Hrest; exfalso; apply Hc; right; left; reflexivity.
  - exfalso. apply Hs. left. reflexivity.
Qed.
Lemma labels_false_colon : forall v r, ~ In TColon v -> ~ In TSeparator v -> v <> [] -> labels false (v ++ TColon :: r) = labels false r.
Proof.
  induction v as [|t v IH]; intros r Hc Hs Hne; [congruence|]. cbn [app]. rewrite labels_cons.
  destruct v as [|t' v].
  - cbn [app]. destruct t; reflexivity.
  - assert (Hrest : labels false ((t' :: v) ++ TColon :: r) = labels false r).
    { apply IH; [intros X; apply Hc; right; exact X|intros X; apply Hs; right; exact X|discriminate]. }
    destruct t; try exact Hrest.
    + cbn [app] in *. destruct t'; try exact Hrest; exfalso; apply Hc; right; left; reflexivity.
    + exfalso. apply Hs. left. reflexivity.
Qed.

Definition given (value : string -> option (list token)) (x : string) : string :=
  match value x with Some [TIdent y] => y | _ => x end.

Lemma labels_sub : forall reps, (forall x v, find_replacement x reps = Some v -> no_colon v) ->
  forall n c b, (List.length c <= n)%nat ->
  (forall x v, In x (labels b c) -> find_replacement x reps = Some v -> exists y, v = [TIdent y]) ->
  labels b (flat_map (sub reps) c) = map (given (fun x => find_replacement x reps)) (labels b c).
Proof.
  intros reps Hreps. induction n as [|n IH]; intros c b Hn Hlab.
  - destruct c; [reflexivity|cbn in Hn; lia].
  - destruct c as [|t c]; [reflexivity|]. cbn [List.length] in Hn. cbn [flat_map].
    assert (Hhead : forall c, (forall r', c <> TColon :: r') -> forall r, flat_map (sub reps) c <> TColon :: r).
    { clear - Hreps. intros c Hc r E. destruct c as [|t c]; [discriminate E|]. cbn [flat_map] in E.
      destruct t; cbn [sub app] in E; try discriminate E.
      - destruct (find_replacement n reps) as [v|] eqn:Ev; [|discriminate E].
        destruct (Hreps n v Ev) as (Hne & Hcol & _). destruct v as [|t v]; [congruence|]. cbn [app] in E.
        injection E as -> _. apply Hcol. left. reflexivity.
      - eapply Hc. reflexivity. }
    destruct t; try (cbn [sub app]; rewrite !labels_cons in *; apply IH; [lia|exact Hlab]).
    assert (Hc : (exists c', c = TColon :: c') \/ (forall r', c <> TColon :: r')).
    { destruct c as [|t c]; [right; discriminate|]. destruct t; try (right; intros r' X; discriminate X). left. eauto. }
    destruct Hc as [[c' ->]|Hc].
    + cbn [List.length] in Hn. change (flat_map (sub reps) (TColon :: c')) with (TColon :: flat_map (sub reps) c').
      rewrite (labels_cons b (TIdent n0)) in *. destruct b.
      * assert (IH' : labels true (flat_map (sub reps) c') = map (given (fun x => find_replacement x reps)) (labels true c')).
        { apply IH; [lia|]. intros x v Hx. apply Hlab. right. exact Hx. }
        cbn [map sub]. unfold given at 1. destruct (find_replacement n0 reps) as [v|] eqn:Ev.
        -- destruct (Hlab n0 v (or_introl eq_refl) Ev) as [y ->]. cbn [app]. rewrite labels_cons, IH'. reflexivity.
        -- cbn [app]. rewrite labels_cons, IH'. reflexivity.
      * assert (IH' : labels false (flat_map (sub reps) c') = map (given (fun x => find_replacement x reps)) (labels false c')).
        { apply IH; [lia|]. exact Hlab. }
        rewrite <- IH'. cbn [sub]. destruct (find_replacement n0 reps) as [v|] eqn:Ev.
        -- destruct (Hreps n0 v Ev) as (Hne & Hcol & Hsep). apply labels_false_colon; assumption.
        -- cbn [app]. rewrite labels_cons. reflexivity.
    + assert (El : labels b (TIdent n0 :: c) = labels false c).
      { rewrite labels_cons. destruct c as [|t c]; [reflexivity|]. destruct t; try reflexivity. exfalso. eapply Hc. reflexivity. }
      rewrite El in *. rewrite <- IH by (lia || exact Hlab). cbn [sub].
      destruct (find_replacement n0 reps) as [v|] eqn:Ev.
      * destruct (Hreps n0 v Ev) as (Hne & Hcol & Hsep). apply labels_false_app; try assumption. apply Hhead. exact Hc.
      * apply labels_false_app; [intros [X|[]]; discriminate X|intros [X|[]]; discriminate X|discriminate|apply Hhead; exact Hc].
Qed.

(** ** The calls of a macro *)
Lemma flat_map_in : forall (f g : token -> list token) l, (forall t, In t l -> f t = g t) -> flat_map f l = flat_map g l.
Proof.
  intros f g. induction l as [|t l IH]; intros H; [reflexivity|]. cbn [flat_map]. rewrite H by (left; reflexivity). f_equal.
  apply IH. intros x Hx. apply H. right. exact Hx.
Qed.
Section Calls.
  Variables (name : string) (ps : list string) (c : list token) (argss : list (list (list token))).
  Variable own : nat -> string -> option string.
  Hypothesis Hap : apart ps c argss.
  Hypothesis own_label : forall k x, declares c x -> own k x = Some (macro_label_name name x (N.of_nat k)).
  Hypothesis own_other : forall k x, ~ declares c x -> own k x = None.
  Let first := hd [] argss.
  Let labs := map (given (bound ps first)) (labels true c).

  Lemma bound_none : forall args x, List.length args = List.length ps -> bound ps args x = None <-> ~ In x ps.
  Proof.
    intros args x Hl. split.
    - intros H Hin. destruct (bound_some ps args x Hl Hin) as [v Hv]. congruence.
    - intros H. destruct (bound ps args x) as [v|] eqn:E; [|reflexivity]. apply bound_in in E. tauto.
  Qed.
  Lemma first_length : argss <> [] -> List.length first = List.length ps.
  Proof.
    intros H. unfold first. destruct argss as [|a l]; [congruence|]. apply (ap_form _ _ _ Hap). left. reflexivity.
  Qed.
  Lemma labs_iff : forall x, argss <> [] -> In x labs <-> (declares c x /\ ~ In x ps) \/ names_label ps c first x.
  Proof.
    intros x Hne. unfold labs. rewrite in_map_iff. unfold given, names_label. split.
    - intros (z & E & Hz). apply declares_iff in Hz. destruct (bound ps first z) as [v|] eqn:Ev.
      + assert (Hv : exists y, v = [TIdent y]).
        { eapply (ap_name _ _ _ Hap first z); try eassumption. unfold first. destruct argss; [congruence|left; reflexivity]. }
        destruct Hv as [y ->]. subst y. right. eauto.
      + subst z. left. split; [exact Hz|]. apply (bound_none first); [apply first_length, Hne|exact Ev].
    - intros [[H1 H2]|(p & Hp & Hb)].
      + exists x. split; [|apply declares_iff, H1]. rewrite (proj2 (bound_none first x (first_length Hne)) H2). reflexivity.
      + exists p. rewrite Hb. split; [reflexivity|apply declares_iff, Hp].
  Qed.

  Definition replacements (k : N) (labels : list string) (args : list (list token)) : list (string * list token) :=
    combine ps args ++ label_replacements (mkMacro name ps c [] k) labels args.
  Lemma find_all : forall k labels args x, find_replacement x (replacements k labels args) =
    match bound ps args x with
    | Some v => Some v
    | None => if mem x labels && negb (mem x (single_names args)) then Some [TIdent (macro_label_name name x k)] else None
    end.
  Proof. intros k l args x. unfold replacements. rewrite find_app, find_combine, find_labels. reflexivity. Qed.

  Lemma replacements_ok : forall k args, In args argss -> forall x v, find_replacement x (replacements k labs args) = Some v ->
    v <> [] /\ forall y, In (TIdent y) (tl v) -> find_replacement y (replacements k labs args) = None.
  Proof.
    intros k args Hin x v. rewrite find_all. destruct (ap_form _ _ _ Hap args Hin) as [Hl Hform].
    destruct (bound ps args x) as [a|] eqn:Eb.
    - intros E. injection E as <-. apply bound_in in Eb as [Hx Ha]. rewrite Forall_forall in Hform.
      split; [apply (Hform a Ha)|]. intros y Hy. rewrite find_all.
      destruct (ap_tail _ _ _ Hap args a y Hin Ha Hy) as [H1 H2].
      rewrite (proj2 (bound_none args y Hl) H1).
      destruct (mem y labs) eqn:Em; [|reflexivity]. apply mem_iff in Em.
      apply labs_iff in Em; [|intros X; rewrite X in Hin; destruct Hin].
      destruct Em as [[Hd _]|Hd]; [|contradiction]. exfalso. apply H1.
      apply (ap_own _ _ _ Hap args a y Hin Ha); [|exact Hd]. destruct a; [destruct Hy|right; exact Hy].
    - destruct (mem x labs && negb (mem x (single_names args))); [|discriminate].
      intros E. injection E as <-. split; [discriminate|]. intros y [].
  Qed.

  Lemma content_meaning : forall k args, In args argss ->
    flat_map (sub (replacements (N.of_nat k) labs args)) c = flat_map (meaning (bound ps args) (own k)) c.
  Proof.
    intros k args Hin. destruct (ap_form _ _ _ Hap args Hin) as [Hl Hform].
    assert (Hne : argss <> []) by (intros X; rewrite X in Hin; destruct Hin).
    assert (H : forall t, In t c -> sub (replacements (N.of_nat k) labs args) t = meaning (bound ps args) (own k) t).
    { intros t Ht. destruct t; try reflexivity. rename n into x.
      cbn [sub meaning]. rewrite find_all. destruct (bound ps args x) as [v|] eqn:Eb; [reflexivity|].
      apply bound_none in Eb; [|exact Hl].
      destruct (in_dec string_dec x (labels true c)) as [Hd|Hd].
      - apply declares_iff in Hd. rewrite (own_label k x Hd).
        assert (E1 : mem x labs = true) by (apply mem_iff, labs_iff; auto).
        assert (E2 : mem x (single_names args) = false).
        { destruct (mem x (single_names args)) eqn:E; [|reflexivity]. exfalso. apply mem_iff, single_iff in E.
          apply Eb. apply (ap_own _ _ _ Hap args _ x Hin E); [left; reflexivity|exact Hd]. }
        rewrite E1, E2. reflexivity.
      - rewrite <- declares_iff in Hd. rewrite (own_other k x Hd).
        destruct (mem x labs) eqn:E1; [|reflexivity]. exfalso. apply mem_iff in E1. apply labs_iff in E1; [|exact Hne].
        destruct E1 as [[H _]|H]; [contradiction|]. exact (ap_content _ _ _ Hap x Ht Eb H). }
    exact (flat_map_in _ _ c H).
  Qed.

  Lemma later_calls : forall l k outs, (forall args, In args l -> In args argss) -> (1 <= k)%nat ->
    (N.of_nat k + N.of_nat (List.length l) <= 2 ^ 64)%N ->
    calls no_equ (mkMacro name ps c labs (N.of_nat k)) l outs <-> outs = texts ps c own k l.
  Proof.
    induction l as [|args l IH]; intros k outs Hin Hk Hb.
    - split; [intros H; inversion H; reflexivity|]. intros ->. constructor.
    - cbn [texts]. cbn [List.length] in Hb.
      assert (Hargs : In args argss) by (apply Hin; left; reflexivity).
      assert (Hrest : forall a, In a l -> In a argss) by (intros a Ha; apply Hin; right; exact Ha).
      assert (Hmod : l <> [] -> ((N.of_nat k + 1) mod 2 ^ 64)%N = N.of_nat (S k)).
      { intros Hl. destruct l as [|a l0]; [congruence|]. cbn [List.length] in Hb. rewrite N.mod_small by lia. lia. }
      assert (Hnil : forall m outs, calls no_equ m [] outs <-> outs = []).
      { intros m os. split; [intros H; inversion H; reflexivity|]. intros ->. constructor. }
      assert (Hrec : forall os, calls no_equ (mkMacro name ps c labs ((N.of_nat k + 1) mod 2 ^ 64)) l os <-> os = texts ps c own (S k) l).
      { intros os. destruct l as [|a l0]; [apply Hnil|]. rewrite Hmod by discriminate. apply IH; [exact Hrest|lia|].
        cbn [List.length] in *. lia. }
      split.
      + intros H. inversion H as [|m0 a0 m' out l0 outs' Hi Hc]; subst. inversion Hi; subst; cbn [m_counter m_name m_params m_content m_labels] in *; [lia|].
        match goal with H : delivers _ _ _ _ |- _ => rename H into Hd end.
        apply delivers_iff in Hd; [|apply replacements_ok; exact Hargs]. apply Hrec in Hc. subst.
        f_equal. exact (content_meaning k args Hargs).
      + intros ->. econstructor; [|apply Hrec; reflexivity].
        apply (inst_later no_equ (mkMacro name ps c labs (N.of_nat k))); cbn [m_counter m_name m_params m_content m_labels]; [lia|].
        apply delivers_iff; [apply (replacements_ok (N.of_nat k)); exact Hargs|]. symmetry. exact (content_meaning k args Hargs).
  Qed.

  Lemma macro_calls : forall outs, (N.of_nat (List.length argss) <= 2 ^ 64)%N ->
    calls no_equ (mkMacro name ps c [] 0) argss outs <-> outs = texts ps c own 0 argss.
  Proof.
    intros outs Hb. assert (El : argss = [] \/ exists args l, argss = args :: l) by (clear; destruct argss; eauto).
    destruct El as [El|(args & l & El)].
    - rewrite El. split; [intros H; inversion H; reflexivity|]. intros ->. constructor.
    - assert (Hne : argss <> []) by (rewrite El; discriminate).
      assert (Hargs : In args argss) by (rewrite El; left; reflexivity).
      assert (Efirst : first = args) by (unfold first; rewrite El; reflexivity).
      destruct (ap_form _ _ _ Hap args Hargs) as [Hl Hform]. rewrite Forall_forall in Hform.
      assert (Hd0 : forall o, delivers no_equ (combine ps args) c o <-> o = flat_map (sub (combine ps args)) c).
      { apply delivers_iff. intros x v. rewrite find_combine. intros Hx. apply bound_in in Hx as [Hx Ha].
        split; [apply (Hform v Ha)|]. intros y Hy. rewrite find_combine. apply bound_none; [exact Hl|].
        apply (ap_tail _ _ _ Hap args v y Hargs Ha Hy). }
      assert (Hlabs : labels true (flat_map (sub (combine ps args)) c) = labs).
      { rewrite (labels_sub (combine ps args)) with (n := List.length c); [| |lia|].
        - unfold labs. rewrite Efirst. apply map_ext. intros x. unfold given. rewrite find_combine. reflexivity.
        - intros x v. rewrite find_combine. intros Hx. apply bound_in in Hx as [_ Ha]. exact (Hform v Ha).
        - intros x v Hx. rewrite find_combine. apply (ap_name _ _ _ Hap args x v Hargs). apply declares_iff, Hx. }
      assert (Hrec : forall os, calls no_equ (mkMacro name ps c labs 1) l os <-> os = texts ps c own 1 l).
      { intros os. apply (later_calls l 1); [intros a Ha; rewrite El; right; exact Ha|lia|]. rewrite El in Hb. cbn [List.length] in Hb. lia. }
      rewrite El. cbn [texts]. split.
      + intros H. inversion H as [|m0 a0 m' out l0 outs' Hi Hc]; subst a0 l0 m0 outs.
        inversion Hi as [out0 out1 H0 H1 H2|out1 H0 H1]; cbn [m_counter m_name m_params m_content m_labels] in *; [|congruence].
        subst m' out1. unfold parameter_replacements in *. cbn [m_params] in *. apply Hd0 in H1. subst out0. rewrite Hlabs in *.
        apply delivers_iff in H2; [|apply (replacements_ok 0); exact Hargs]. apply Hrec in Hc. subst out outs'.
        f_equal. exact (content_meaning 0 args Hargs).
      + intros ->. econstructor; [|apply Hrec; reflexivity]. rewrite <- Hlabs.
        apply (inst_first no_equ (mkMacro name ps c [] 0)); cbn [m_counter m_name m_params m_content m_labels]; [reflexivity| |].
        * apply Hd0. reflexivity.
        * rewrite Hlabs. apply delivers_iff; [apply (replacements_ok 0); exact Hargs|]. symmetry. exact (content_meaning 0 args Hargs).
  Qed.
End Calls.
