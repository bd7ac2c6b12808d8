(** Termination and correctness of token replacement. *)

Require Import ZArith List String Ascii Bool Lia Arith.
From Verif Require Import LexModel LexProofs ParseModel SymModel SymSpec SymIface SymProofs ExpandModel ExpandSpec.
Import ListNotations.

(** ** One step *)

Lemma process_S : forall f e l, process (S f) e l =
  match l with
  | [] => PDone []
  | (t, true) :: _ => PDone l
  | (t, false) :: r =>
      match is_ident t with
      | None => PDone ((t, true) :: r)
      | Some x =>
          match find_replacement x (e_replacements e) with
          | Some [] => PBad
          | Some (v0 :: vs) =>
              match is_ident v0 with
              | None => process f e ((v0, false) :: unchecked vs ++ r)
              | Some y =>
                  match e_equ e y with
                  | None => PDone ((v0, true) :: unchecked vs ++ r)
                  | Some w =>
                      if is_equ (unchecked vs ++ r) then PDone ((v0, false) :: unchecked vs ++ r)
                      else match w with [] => PBad | _ => process f e (unchecked w ++ unchecked vs ++ r) end
                  end
              end
          | None =>
              match e_equ e x with
              | None => PDone ((t, true) :: r)
              | Some w =>
                  if is_equ r then PDone ((t, false) :: r)
                  else match w with [] => PBad | _ => process f e (unchecked w ++ r) end
              end
          end
      end
  end.
Proof.
  intros f e l. cbn [process]. destruct l as [|[t [|]] r]; try reflexivity.
  destruct (is_ident t) as [x|] eqn:Et; [|reflexivity].
  destruct (find_replacement x (e_replacements e)) as [[|v0 vs]|]; reflexivity.
Qed.
Lemma drain_S : forall f e stop l, drain (S f) e stop l =
  match process (S f) e l with
  | PBad => DBad | PMore => DMore | PDone [] => DDone []
  | PDone ((t, _) :: r) =>
      if stop t then DDone []
      else match drain f e stop r with DDone out => DDone (t :: out) | x => x end
  end.
Proof. reflexivity. Qed.

Lemma process_mono : forall e f l1 l2, process f e l1 = PDone l2 -> process (S f) e l1 = PDone l2.
Proof.
  intros e. induction f as [|f IH]; intros l1 l2 H; [discriminate|].
  rewrite process_S in H. rewrite process_S.
  destruct l1 as [|[t [|]] r]; [exact H|exact H|].
  destruct (is_ident t) as [x|]; [|exact H].
  destruct (find_replacement x (e_replacements e)) as [[|v0 vs]|].
  - exact H.
  - destruct (is_ident v0) as [y|]; [|apply IH, H].
    destruct (e_equ e y) as [w|]; [|exact H].
    destruct (is_equ (unchecked vs ++ r)); [exact H|]. destruct w; [exact H|]. apply IH, H.
  - destruct (e_equ e x) as [w|]; [|exact H].
    destruct (is_equ r); [exact H|]. destruct w; [exact H|]. apply IH, H.
Qed.
Lemma process_bad_mono : forall e f l1, process f e l1 = PBad -> process (S f) e l1 = PBad.
Proof.
  intros e. induction f as [|f IH]; intros l1 H; [discriminate|].
  rewrite process_S in H. rewrite process_S.
  destruct l1 as [|[t [|]] r]; [exact H|exact H|].
  destruct (is_ident t) as [x|]; [|exact H].
  destruct (find_replacement x (e_replacements e)) as [[|v0 vs]|].
  - exact H.
  - destruct (is_ident v0) as [y|]; [|apply IH, H].
    destruct (e_equ e y) as [w|]; [|exact H].
    destruct (is_equ (unchecked vs ++ r)); [exact H|]. destruct w; [exact H|]. apply IH, H.
  - destruct (e_equ e x) as [w|]; [|exact H].
    destruct (is_equ r); [exact H|]. destruct w; [exact H|]. apply IH, H.
Qed.
Lemma drain_mono : forall e stop f l o, drain f e stop l = o -> o <> DMore -> drain (S f) e stop l = o.
Proof.
  intros e stop. induction f as [|f IH]; intros l o H Ho; [cbn in H; congruence|].
  rewrite drain_S in H. rewrite drain_S.
  destruct (process (S f) e l) as [l'| |] eqn:E; [|rewrite (process_bad_mono _ _ _ E); exact H|congruence].
  rewrite (process_mono _ _ _ _ E). destruct l' as [|[t c] r]; [exact H|].
  destruct (stop t); [exact H|].
  destruct (drain f e stop r) as [o2| |] eqn:Er.
  - rewrite (IH _ _ Er) by discriminate. exact H.
  - rewrite (IH _ _ Er) by discriminate. exact H.
  - congruence.
Qed.
Lemma drain_le : forall e stop f f' l o, drain f e stop l = o -> o <> DMore -> (f <= f')%nat ->
  drain f' e stop l = o.
Proof.
  intros e stop f f' l o H Ho Hle. induction Hle as [|f' Hle IH]; [exact H|]. apply drain_mono; assumption.
Qed.

Section Drain.
Variable e : env.
Variable stop : token -> bool.

Let arg x := find_replacement x (e_replacements e).
Let equ := e_equ e.

(** The delivered tokens end in front of the first stop token. *)
Fixpoint cut (o : list token) : list token :=
  match o with [] => [] | t :: r => if stop t then [] else t :: cut r end.
Definition drains (l : list ctoken) (o : list token) : Prop :=
  exists fuel, drain fuel e stop l = DDone (cut o).

(** Arguments are not empty and contain nothing that is replaced in turn; equ values are not empty
    and contain no equ keyword. *)
Hypothesis args_ok : forall x v, arg x = Some v ->
  v <> [] /\ forall y, In (TIdent y) v -> arg y = None /\ equ y = None.
Hypothesis equs_ok : forall x w, equ x = Some w -> w <> [] /\ ~ In TEqu w.

Lemma drains_nil : drains [] [].
Proof. exists 1%nat. reflexivity. Qed.

(** A head that processElement leaves alone is delivered. *)
Lemma drains_deliver : forall l t c r o n,
  process n e l = PDone ((t, c) :: r) ->
  drains r o -> drains l (t :: o).
Proof.
  intros l t c r o n Hp [m Hm]. exists (S (n + m)). rewrite drain_S.
  assert (Hp' : process (S (n + m)) e l = PDone ((t, c) :: r)).
  { replace (S (n + m)) with (S m + n)%nat by lia. clear Hm. induction (S m) as [|k IH]; [exact Hp|].
    cbn [Nat.add]. apply process_mono, IH. }
  rewrite Hp'. cbn [cut]. destruct (stop t); [reflexivity|].
  rewrite (drain_le _ _ m (n + m) _ _ Hm) by (discriminate || lia). reflexivity.
Qed.
(** A step of processElement that continues with another list. *)
Lemma drains_step : forall l l' o,
  (forall fuel, process (S fuel) e l = process fuel e l') -> drains l' o -> drains l o.
Proof.
  intros l l' o Hp [m Hm]. exists (S m). destruct m as [|m]; [discriminate|].
  rewrite drain_S in *. rewrite Hp.
  destruct (process (S m) e l') as [[|[t c] r]| |] eqn:E; try exact Hm; try discriminate Hm.
  destruct (stop t); [exact Hm|].
  destruct (drain m e stop r) as [o'| |] eqn:Er; try discriminate Hm.
  rewrite (drain_mono _ _ _ _ _ Er) by discriminate. exact Hm.
Qed.

Lemma drains_plain : forall t r o, (forall x, t = TIdent x -> arg x = None /\ equ x = None) ->
  drains r o -> drains ((t, false) :: r) (t :: o).
Proof.
  intros t r o Ht Hr. eapply (drains_deliver _ t true r o 1); [|exact Hr].
  rewrite process_S. destruct t; try reflexivity. cbn [is_ident].
  destruct (Ht n eq_refl) as [H1 H2]. unfold arg, equ in H1, H2. rewrite H1, H2. reflexivity.
Qed.
Lemma drains_plain_list : forall v r o, (forall y, In (TIdent y) v -> arg y = None /\ equ y = None) ->
  drains r o -> drains (unchecked v ++ r) (v ++ o).
Proof.
  induction v as [|t v IH]; intros r o Hv Hr; [exact Hr|]. cbn [unchecked map app].
  apply drains_plain.
  - intros x ->. apply Hv. left. reflexivity.
  - apply IH; [|exact Hr]. intros y Hy. apply Hv. right. exact Hy.
Qed.
Lemma drains_arg : forall x v r o, arg x = Some v -> drains r o ->
  drains ((TIdent x, false) :: r) (v ++ o).
Proof.
  intros x v r o Hx Hr. destruct (args_ok x v Hx) as [Hne Hv].
  pose proof (drains_plain_list v r o Hv Hr) as H.
  destruct v as [|v0 vs]; [congruence|].
  destruct (is_ident v0) as [y|] eqn:E.
  - assert (v0 = TIdent y) by (destruct v0; cbn in E; congruence). subst v0.
    destruct (Hv y (or_introl eq_refl)) as [_ Hy].
    eapply (drains_deliver _ (TIdent y) true (unchecked vs ++ r) (vs ++ o) 1).
    + rewrite process_S. cbn [is_ident]. unfold arg in Hx. rewrite Hx. cbn [is_ident].
      unfold equ in Hy. rewrite Hy. reflexivity.
    + apply drains_plain_list; [|exact Hr]. intros z Hz. apply Hv. right. exact Hz.
  - eapply drains_step; [|exact H]. intros fuel. rewrite process_S. cbn [is_ident].
    unfold arg in Hx. rewrite Hx, E. reflexivity.
Qed.
Lemma drains_equ : forall x w r o, arg x = None -> equ x = Some w -> is_equ r = false ->
  drains (unchecked w ++ r) o -> drains ((TIdent x, false) :: r) o.
Proof.
  intros x w r o Ha Hx Hr H. eapply drains_step; [|exact H]. intros fuel. rewrite process_S. cbn [is_ident].
  unfold arg, equ in *. rewrite Ha, Hx, Hr. destruct w; [|reflexivity].
  destruct (equs_ok x []); [exact Hx|congruence].
Qed.

Lemma is_equ_head : forall ts r, is_equ (unchecked ts ++ r) =
  match ts with [] => is_equ r | t :: _ => match t with TEqu => true | _ => false end end.
Proof. intros [|t ts] r; [reflexivity|]. cbn. destruct t; reflexivity. Qed.

Lemma full_drains :
  (forall ts o, full arg equ ts o -> ~ In TEqu ts -> forall r o', is_equ r = false -> drains r o' ->
     drains (unchecked ts ++ r) (o ++ o')) /\
  (forall t o, full1 arg equ t o -> forall r o', is_equ r = false -> drains r o' ->
     drains ((t, false) :: r) (o ++ o')).
Proof.
  apply full_full1_ind.
  - intros _ r o' _ H. exact H.
  - intros t ts o1 o2 _ IH1 _ IH2 Hin r o' Hr H. cbn [unchecked map app]. rewrite <- app_assoc.
    apply IH1.
    + change (List.map (fun t => (t, false)) ts) with (unchecked ts). rewrite is_equ_head.
      destruct ts as [|t' ts]; [exact Hr|]. destruct t'; try reflexivity.
      exfalso. apply Hin. right. left. reflexivity.
    + apply IH2; [|exact Hr|exact H]. intros Hi. apply Hin. right. exact Hi.
  - intros t Ht r o' Hr H. apply drains_plain; assumption.
  - intros x v Hx r o' Hr H. apply drains_arg; assumption.
  - intros x w o Ha Hx Hw IH r o' Hr H. apply drains_equ with (w := w); try assumption.
    apply IH; try assumption. apply (equs_ok x w Hx).
Qed.

Lemma expansion_drains : forall ts o, expansion arg equ ts o -> drains (unchecked ts) o.
Proof.
  induction 1 as [|t r o Hb Ha _ IH|t r o1 o2 Hb Hf _ IH].
  - exact drains_nil.
  - cbn [unchecked map]. destruct Hb as (r' & ->).
    change (List.map (fun t => (t, false)) (TEqu :: r')) with (unchecked (TEqu :: r')).
    destruct (is_ident t) as [x|] eqn:E.
    + assert (t = TIdent x) by (destruct t; cbn in E; congruence). subst t.
      assert (Hax : arg x = None). { destruct (arg x) eqn:Ex; [|reflexivity]. exfalso. apply Ha. exists x, l. auto. }
      destruct (equ x) as [w|] eqn:Ex.
      * eapply (drains_deliver _ (TIdent x) false (unchecked (TEqu :: r')) o 1); [|exact IH].
        rewrite process_S. cbn [is_ident]. unfold arg, equ in *. rewrite Hax, Ex. reflexivity.
      * apply drains_plain; [|exact IH]. intros y Hy. injection Hy as <-. auto.
    + apply drains_plain; [|exact IH]. intros y ->. discriminate E.
  - cbn [unchecked map]. change (List.map (fun t => (t, false)) r) with (unchecked r).
    destruct (is_equ (unchecked r)) eqn:Eq.
    + (* then t is an argument *)
      assert (Hbe : before_equ r).
      { destruct r as [|t' r']; [discriminate|]. destruct t'; try discriminate. exists r'. reflexivity. }
      destruct Hb as [Hb|(x & v & -> & Hx)]; [tauto|].
      inversion Hf as [t' Ht|x' v' Hx'|x' w o' Hn]; subst.
      * destruct (Ht x eq_refl). congruence.
      * apply drains_arg; assumption.
      * congruence.
    + apply full_drains; assumption.
Qed.
End Drain.

(** ** Existence and uniqueness of the expansion *)

Section Ranked.
Variable arg equ : string -> option (list token).
Variable rank : string -> nat.
Hypothesis ranked : forall x w y w', equ x = Some w -> In (TIdent y) w -> equ y = Some w' ->
  (rank y < rank x)%nat.

Lemma full_ident : forall n x, (forall w, equ x = Some w -> (rank x < n)%nat) ->
  exists o, full1 arg equ (TIdent x) o.
Proof.
  induction n as [|n IH]; intros x Hx.
  - destruct (arg x) as [v|] eqn:Ea; [exists v; apply full_arg, Ea|].
    destruct (equ x) as [w|] eqn:Ex; [specialize (Hx w eq_refl); lia|].
    exists [TIdent x]. apply full_keep. intros y Hy. injection Hy as <-. auto.
  - destruct (arg x) as [v|] eqn:Ea; [exists v; apply full_arg, Ea|].
    destruct (equ x) as [w|] eqn:Ex.
    + specialize (Hx w eq_refl).
      assert (Hw : forall l, (forall y, In (TIdent y) l -> In (TIdent y) w) -> exists o, full arg equ l o).
      { induction l as [|t l IHl]; intros Hl; [exists []; constructor|].
        destruct IHl as (o2 & Ho2); [intros y Hy; apply Hl; right; exact Hy|].
        destruct (is_ident t) as [y|] eqn:Et.
        - assert (t = TIdent y) by (destruct t; cbn in Et; congruence). subst t.
          destruct (IH y) as (o1 & Ho1).
          + intros w' Hw'. pose proof (ranked x w y w' Ex (Hl y (or_introl eq_refl)) Hw'). lia.
          + exists (o1 ++ o2). constructor; assumption.
        - exists ([t] ++ o2). constructor; [|exact Ho2]. apply full_keep. intros y ->. discriminate Et. }
      destruct (Hw w ltac:(auto)) as (o & Ho). exists o. eapply full_equ; eassumption.
    + exists [TIdent x]. apply full_keep. intros y Hy. injection Hy as <-. auto.
Qed.
Lemma full1_exists : forall t, exists o, full1 arg equ t o.
Proof.
  intros t. destruct (is_ident t) as [x|] eqn:E.
  - assert (t = TIdent x) by (destruct t; cbn in E; congruence). subst t.
    apply (full_ident (S (rank x))). intros; lia.
  - exists [t]. apply full_keep. intros y ->. discriminate E.
Qed.
Lemma expansion_exists : forall ts, exists o, expansion arg equ ts o.
Proof.
  induction ts as [|t ts (o2 & IH)]; [exists []; constructor|].
  assert (Hb : before_equ ts \/ ~ before_equ ts).
  { destruct ts as [|t' ts]; [right; intros (r & H); discriminate|].
    destruct t'; try (right; intros (r & H); discriminate). left. exists ts. reflexivity. }
  assert (Ha : is_arg arg t \/ ~ is_arg arg t).
  { destruct (is_ident t) as [x|] eqn:E.
    - assert (t = TIdent x) by (destruct t; cbn in E; congruence). subst t.
      destruct (arg x) as [v|] eqn:Ex; [left; exists x, v; auto|].
      right. intros (y & v & Hy & Hv). congruence.
    - right. intros (y & v & -> & _). discriminate E. }
  destruct Hb as [Hb|Hb].
  - destruct Ha as [Ha|Ha].
    + destruct (full1_exists t) as (o1 & H1). exists (o1 ++ o2). apply exp_token; auto.
    + exists (t :: o2). apply exp_declared; auto.
  - destruct (full1_exists t) as (o1 & H1). exists (o1 ++ o2). apply exp_token; auto.
Qed.
End Ranked.

(** ** What reading delivers *)

Definition fresh (l : list ctoken) : Prop := Forall (fun c => snd c = false) l.
Lemma fresh_unchecked : forall l, fresh (unchecked l).
Proof. intros. unfold fresh, unchecked. apply Forall_forall. intros c Hc. apply in_map_iff in Hc.
  destruct Hc as (t & <- & _). reflexivity. Qed.

Section Sound.
Variable e : env.
Hypothesis no_args : e_replacements e = [].
Variable P : token -> Prop.
Hypothesis equ_P : forall x w, e_equ e x = Some w -> Forall P w.

Lemma process_sound : forall f l l', fresh l -> Forall (fun c => P (fst c)) l -> process f e l = PDone l' ->
  match l' with
  | [] => True
  | (t, c) :: r => fresh r /\ P t /\ Forall (fun c => P (fst c)) r /\
      (forall x, t = TIdent x -> e_equ e x = None \/ is_equ r = true)
  end.
Proof.
  induction f as [|f IH]; intros l l' Hl HP H; [discriminate|].
  rewrite process_S in H. rewrite no_args in H. cbn [find_replacement] in H.
  destruct l as [|[t c] r]; [injection H as <-; exact I|].
  inversion Hl; subst. inversion HP; subst. cbn in *. subst c.
  destruct (is_ident t) as [x|] eqn:E.
  - assert (t = TIdent x) by (destruct t; cbn in E; congruence). subst t.
    destruct (e_equ e x) as [w|] eqn:Ex.
    + destruct (is_equ r) eqn:Er; [injection H as <-; repeat split; auto|].
      destruct w as [|t0 w]; [discriminate|].
      apply IH in H; [exact H| |].
      * apply Forall_app. split; [apply fresh_unchecked|assumption].
      * apply Forall_app. split; [|assumption]. apply equ_P in Ex. revert Ex. generalize (t0 :: w).
        intros v Hv. induction Hv; cbn; constructor; auto.
    + injection H as <-. repeat split; auto. intros y Hy. injection Hy as <-. auto.
  - injection H as <-. repeat split; auto. intros y ->. discriminate E.
Qed.

Lemma drain_sound : forall stop, stop TEqu = false -> forall f l out, fresh l -> Forall (fun c => P (fst c)) l ->
  drain f e stop l = DDone out ->
  Forall P out /\ Forall (fun t => stop t = false) out /\
  (forall pre x post, out = pre ++ TIdent x :: post -> e_equ e x = None \/ before_equ post).
Proof.
  intros stop Hs. induction f as [|f IH]; intros l out Hl HP H; [discriminate|].
  rewrite drain_S in H.
  destruct (process (S f) e l) as [[|[t c] r]| |] eqn:E; try discriminate.
  - injection H as <-. split; [constructor|split; [constructor|]]. intros pre y post Hy; destruct pre; discriminate Hy.
  - apply process_sound in E; try assumption. destruct E as (Hr & Ht & HPr & Hx).
    destruct (stop t) eqn:Est.
    + injection H as <-. split; [constructor|split; [constructor|]]. intros pre y post Hy; destruct pre; discriminate Hy.
    + destruct (drain f e stop r) as [o| |] eqn:Er; try discriminate. injection H as <-.
      destruct (IH _ _ Hr HPr Er) as (H1 & H2 & H3).
      split; [constructor; assumption|]. split; [constructor; assumption|].
      intros pre x post Ho. destruct pre as [|t' pre]; cbn [app] in Ho.
      * injection Ho as -> <-. destruct (Hx x eq_refl) as [Hn|He]; [auto|right].
        destruct r as [|[t' c'] r]; [discriminate|]. destruct t'; try discriminate.
        destruct f as [|f]; [discriminate|]. rewrite drain_S in Er.
        rewrite process_S in Er. destruct c'; cbn [is_ident] in Er; rewrite Hs in Er;
          (destruct (drain f e stop r) as [o'| |]; [|discriminate|discriminate]);
          injection Er as <-; exists o'; reflexivity.
      * injection Ho as -> ->. eapply H3. reflexivity.
Qed.
End Sound.
