(** Equ declarations keep the replacement relation well-founded. *)

Require Import ZArith List String Ascii Bool Lia Arith.
From Verif Require Import LexModel LexProofs ParseModel SymModel SymSpec SymIface SymProofs ExpandModel ExpandSpec.
From Verif Require Import ExpandProofs ExpandIface.
Import ListNotations.

Definition at_place (t : table) (x : string) (f s : Z) : option nat := find_equation t x f s.
Lemma find_equation_ref : forall t x f s,
  find_equation t x f s = match lookup t (mkRef x f s) with Some (SEqu i) => Some i | _ => None end.
Proof. intros. exact (find_equation_eq t (mkRef x f s)). Qed.

Lemma label_keeps_equs : forall t a x f s, (exists r, a = Reference r \/ exists v, a = Define r v) ->
  find_equation (act t a) x f s = find_equation t x f s.
Proof.
  intros t a x f s (r & Ha). rewrite !find_equation_ref.
  assert (Hget : match lookup (fst (get_label t (r_name r) (r_file r) (r_section r))) (mkRef x f s)
            with Some (SEqu i) => Some i | _ => None end =
          match lookup t (mkRef x f s) with Some (SEqu i) => Some i | _ => None end).
  { rewrite get_label_eq. destruct (negb _); [reflexivity|].
    destruct (lookup t r) as [[i|i]|] eqn:E; try reflexivity.
    unfold lookup. cbn [fst t_symbols find_key].
    destruct (key_eqb (ref_key (mkRef x f s)) (ref_key r)) eqn:Ek; [|reflexivity].
    apply key_eqb_eq in Ek. unfold lookup in E. rewrite Ek, E. reflexivity. }
  destruct Ha as [-> | [v ->]]; cbn [act]; [exact Hget|].
  unfold define_label. destruct (get_label t (r_name r) (r_file r) (r_section r)) as [t' [i|]]; exact Hget.
Qed.

Definition good_value (w : list token) : Prop :=
  w <> [] /\ ~ In TEqu w /\ Forall lowered w /\ ~ In TSeparator w.

Record inv (ds : list sref) (q : equs) : Prop := {
  inv_len : List.length ds = List.length (q_values q);
  inv_name : forall x f s i, find_equation (q_table q) x f s = Some i ->
    exists r, nth_error ds i = Some r /\ same_symbol (mkRef x f s) r;
  inv_value : forall i w, nth_error (q_values q) i = Some w -> good_value w;
  inv_later : forall i w r y j, nth_error (q_values q) i = Some w -> nth_error ds i = Some r ->
    In (TIdent y) w -> find_equation (q_table q) y (r_file r) (r_section r) = Some j -> (i < j)%nat }.

Lemma inv_nil : inv [] no_equs.
Proof.
  constructor; cbn; try reflexivity.
  - intros x f s i H. rewrite find_equation_ref in H. discriminate.
  - intros [|i] w H; discriminate.
  - intros [|i] w r y j H; discriminate.
Qed.

Lemma process_head : forall e f t r l', e_replacements e = [] ->
  (forall x w, e_equ e x = Some w -> w <> []) ->
  process f e ((t, false) :: r) = PDone l' ->
  exists t' c r', l' = (t', c) :: r' /\ (t' = t \/ exists x w, e_equ e x = Some w /\ In t' w).
Proof.
  intros e f. induction f as [|f IH]; intros t r l' Ha He H; [discriminate|].
  rewrite process_S in H. rewrite Ha in H. cbn [find_replacement] in H.
  destruct (is_ident t) as [x|]; [|injection H as <-; eauto 6].
  destruct (e_equ e x) as [w|] eqn:Ex; [|injection H as <-; eauto 6].
  destruct (is_equ r); [injection H as <-; eauto 6|].
  destruct w as [|t0 w]; [discriminate|]. cbn [unchecked map app] in H.
  destruct (IH _ _ _ Ha He H) as (t' & c & r' & -> & Ht). exists t', c, r'. split; [reflexivity|].
  destruct Ht as [->|Ht]; [|right; exact Ht]. right. exists x, (t0 :: w). split; [exact Ex|left; reflexivity].
Qed.

Lemma equ_at_inv : forall ds q f s x w, inv ds q -> equ_at q f s x = Some w ->
  exists i r, find_equation (q_table q) x f s = Some i /\ nth_error (q_values q) i = Some w
    /\ nth_error ds i = Some r /\ same_symbol (mkRef x f s) r.
Proof.
  intros ds q f s x w H Hx. unfold equ_at in Hx.
  destruct (find_equation (q_table q) x f s) as [i|] eqn:E; [|discriminate].
  destruct (inv_name _ _ H _ _ _ _ E) as (r & Hr & Hs). eauto 8.
Qed.

Lemma history_inv : forall ds q, equ_history ds q -> inv ds q.
Proof.
  induction 1 as [|ds q a H IH Ha|ds q r t0 value fuel q' H IH Hn Hl Hsep Hd].
  - exact inv_nil.
  - destruct IH as [H1 H2 H3 H4]. constructor; cbn [q_table q_values].
    + exact H1.
    + intros x f s i. rewrite (label_keeps_equs _ _ _ _ _ Ha). apply H2.
    + exact H3.
    + intros i w r y j Hw Hr Hy. rewrite (label_keeps_equs _ _ _ _ _ Ha). eapply H4; eassumption.
  - pose proof IH as [H1 H2 H3 H4]. unfold define_equ in Hd.
    set (e := file_env q (r_file r) (r_section r)) in Hd.
    destruct (drain fuel e is_separator (unchecked (t0 :: value))) as [out| |] eqn:Ed; try discriminate.
    destruct (existsb (is_name (r_name r)) out || existsb is_equ_token out) eqn:Ee; [discriminate|].
    apply orb_false_iff in Ee. destruct Ee as [En Eq].
    assert (HeP : forall x w, e_equ e x = Some w -> Forall lowered w).
    { intros x w Hx. destruct (equ_at_inv _ _ _ _ _ _ IH Hx) as (i & r' & _ & Hw & _).
      apply H3 in Hw. apply Hw. }
    assert (Hfresh : Forall (fun c : ctoken => lowered (fst c)) (unchecked (t0 :: value))).
    { unfold unchecked. apply Forall_forall. intros c Hc. apply in_map_iff in Hc.
      destruct Hc as (t & <- & Ht). rewrite Forall_forall in Hl. apply Hl, Ht. }
    destruct (drain_sound e eq_refl lowered HeP is_separator eq_refl _ _ _ (fresh_unchecked _) Hfresh Ed)
      as (Hlow & Hns & Hclosed).
    assert (Hnoequ : ~ In TEqu out).
    { intros Hin. assert (existsb is_equ_token out = true) by (apply existsb_exists; exists TEqu; auto). congruence. }
    assert (Hnoname : ~ In (TIdent (r_name r)) out).
    { intros Hin. assert (existsb (is_name (r_name r)) out = true).
      { apply existsb_exists. exists (TIdent (r_name r)). split; [exact Hin|]. cbn. apply String.eqb_refl. }
      congruence. }
    assert (Hgood : good_value out).
    { split; [|split; [exact Hnoequ|split; [exact Hlow|]]].
      - intros ->. destruct fuel as [|fuel]; [discriminate|]. rewrite drain_S in Ed.
        destruct (process (S fuel) e (unchecked (t0 :: value))) as [l'| |] eqn:Ep; try discriminate.
        cbn [unchecked map] in Ep. apply process_head in Ep; [|reflexivity|].
        + destruct Ep as (t' & c & r' & -> & Ht).
          assert (Hst : is_separator t' = false).
          { destruct Ht as [->|(x & w & Hx & Hin)]; [exact Hsep|].
            destruct (equ_at_inv _ _ _ _ _ _ IH Hx) as (i & r2 & _ & Hw & _).
            apply H3 in Hw. destruct t'; try reflexivity. exfalso. apply Hw. exact Hin. }
          rewrite Hst in Ed. destruct (drain fuel e is_separator r'); discriminate.
        + intros x w Hx. destruct (equ_at_inv _ _ _ _ _ _ IH Hx) as (i & r2 & _ & Hw & _).
          apply H3 in Hw. apply Hw.
      - intros Hin. rewrite Forall_forall in Hns. apply Hns in Hin. discriminate. }
    (* every visible equ name in the value is gone *)
    assert (Hgone : forall y, In (TIdent y) out -> find_equation (q_table q) y (r_file r) (r_section r) = None).
    { intros y Hy. destruct (find_equation (q_table q) y (r_file r) (r_section r)) as [j|] eqn:Ej; [|reflexivity].
      apply in_split in Hy. destruct Hy as (pre & post & Hout).
      destruct (Hclosed pre y post Hout) as [He|(r' & ->)].
      - exfalso. cbn in He. unfold equ_at in He. rewrite Ej in He.
        destruct (H2 _ _ _ _ Ej) as (r' & Hr' & _).
        apply nth_error_None in He. rewrite <- H1 in He. apply nth_error_None in He. congruence.
      - exfalso. apply Hnoequ. rewrite Hout. apply in_or_app. right. right. left. reflexivity. }
    destruct (add_equation (q_table q) (r_name r) (r_file r) (r_section r) (List.length (q_values q))) as [t' b] eqn:Eadd.
    injection Hd as <-.
    assert (Hfind : forall x f s i, find_equation t' x f s = Some i ->
      find_equation (q_table q) x f s = Some i \/
      (i = List.length (q_values q) /\ same_symbol (mkRef x f s) r)).
    { intros x f s i. rewrite add_equation_eq in Eadd.
      destruct (negb _); [injection Eadd as <- <-; auto|].
      destruct (lookup (q_table q) r); [injection Eadd as <- <-; auto|].
      injection Eadd as <- <-. rewrite !find_equation_ref. unfold lookup. cbn [t_symbols find_key].
      destruct (key_eqb (ref_key (mkRef x f s)) (ref_key r)) eqn:Ek; [|auto].
      intros Hi. injection Hi as <-. right. split; [reflexivity|]. apply ref_key_same, key_eqb_eq, Ek. }
    constructor; cbn [q_table q_values].
    + rewrite !app_length, H1. reflexivity.
    + intros x f s i Hi. destruct (Hfind _ _ _ _ Hi) as [Hi'|[-> Hs]].
      * destruct (H2 _ _ _ _ Hi') as (r' & Hr' & Hs). exists r'. split; [|exact Hs].
        rewrite nth_error_app1; [exact Hr'|]. apply nth_error_Some. congruence.
      * exists r. split; [|exact Hs]. rewrite <- H1, nth_error_app2, Nat.sub_diag by lia. reflexivity.
    + intros i w Hw. destruct (Nat.lt_ge_cases i (List.length (q_values q))) as [Hlt|Hge].
      * rewrite nth_error_app1 in Hw by exact Hlt. eapply H3, Hw.
      * rewrite nth_error_app2 in Hw by exact Hge.
        destruct (i - List.length (q_values q))%nat as [|k]; cbn in Hw; [|destruct k; discriminate].
        injection Hw as <-. exact Hgood.
    + intros i w r' y j Hw Hr' Hy Hj.
      destruct (Nat.lt_ge_cases i (List.length (q_values q))) as [Hlt|Hge].
      * rewrite nth_error_app1 in Hw by exact Hlt. rewrite nth_error_app1 in Hr' by lia.
        destruct (Hfind _ _ _ _ Hj) as [Hj'|[-> _]]; [eapply H4; eassumption|exact Hlt].
      * rewrite nth_error_app2 in Hw by exact Hge. rewrite nth_error_app2 in Hr' by lia.
        rewrite H1 in Hr'.
        destruct (i - List.length (q_values q))%nat as [|k]; cbn in Hw, Hr'; [|destruct k; discriminate].
        injection Hw as <-. injection Hr' as <-.
        destruct (Hfind _ _ _ _ Hj) as [Hj'|[-> Hs]].
        -- rewrite (Hgone y Hy) in Hj'. discriminate.
        -- exfalso. apply Hnoname. destruct Hs as [Hs _]. cbn [r_name] in Hs.
           apply lower_string_same in Hs. rewrite Forall_forall in Hlow.
           rewrite (Hlow _ Hy y eq_refl), Hn in Hs. rewrite <- Hs. exact Hy.
Qed.

(** ** Reading a source *)

Lemma ranked_at : forall ds q f s, inv ds q -> ordered ds f s ->
  exists rank : string -> nat, forall x w y w', equ_at q f s x = Some w -> In (TIdent y) w ->
    equ_at q f s y = Some w' -> (rank y < rank x)%nat.
Proof.
  intros ds q f s Hi (Hord & Hlast & Hfiles).
  exists (fun x => match find_equation (q_table q) x f s with
                   | Some i => List.length ds - i | None => 0 end)%nat.
  intros x w y w' Hx Hin Hy.
  destruct (equ_at_inv _ _ _ _ _ _ Hi Hx) as (i & ri & Ei & Hw & Hri & Hsi).
  destruct (equ_at_inv _ _ _ _ _ _ Hi Hy) as (j & rj & Ej & Hw' & Hrj & Hsj).
  rewrite Ei, Ej.
  assert (Hil : (i < List.length ds)%nat) by (apply nth_error_Some; congruence).
  assert (Hjl : (j < List.length ds)%nat) by (apply nth_error_Some; congruence).
  destruct (Nat.lt_ge_cases i j) as [Hlt|Hge]; [lia|]. exfalso.
  assert (Hfind : find_equation (q_table q) y (r_file ri) (r_section ri) = Some j).
  { rewrite find_equation_ref in *. unfold lookup in *.
    replace (ref_key (mkRef y (r_file ri) (r_section ri))) with (ref_key (mkRef y f s)); [exact Ej|].
    apply ref_key_same. split; [apply lower_string_same; reflexivity|].
    destruct Hsj as [_ Hsc]. rewrite !scope_shape in *. cbn [r_name r_file r_section] in *.
    pose proof (nth_error_In _ _ Hri) as Ini. pose proof (nth_error_In _ _ Hrj) as Inj.
    destruct (shape_of y).
    - reflexivity.
    - f_equal. destruct Hfiles as [Hf|Hf]; [symmetry; apply Hf, Ini|].
      exfalso. apply (Hf rj Inj f). rewrite scope_shape. symmetry. exact Hsc.
    - f_equal.
      assert (Hsec : r_section rj = s) by (destruct (shape_of (r_name rj)); congruence).
      pose proof (Hord j i rj ri Hrj Hri Hge). pose proof (Hlast ri Ini). lia. }
  pose proof (inv_later _ _ Hi _ _ _ _ _ Hw Hri Hin Hfind). lia.
Qed.

Definition never (t : token) : bool := false.
Lemma cut_never : forall o, cut never o = o.
Proof. induction o as [|t o IH]; [reflexivity|]. cbn. rewrite IH. reflexivity. Qed.

Lemma file_env_ok : forall ds q f s, inv ds q -> forall x w, e_equ (file_env q f s) x = Some w -> w <> [] /\ ~ In TEqu w.
Proof.
  intros ds q f s Hi x w Hx. destruct (equ_at_inv _ _ _ _ _ _ Hi Hx) as (i & r' & _ & Hw & _).
  apply (inv_value _ _ Hi) in Hw. split; apply Hw.
Qed.

Lemma equ_expansion : forall ds q f s ts, equ_history ds q -> ordered ds f s ->
  exists out,
    expansion (fun _ => None) (equ_at q f s) ts out /\
    (exists fuel, drain fuel (file_env q f s) never (unchecked ts) = DDone out) /\
    (forall fuel, drain fuel (file_env q f s) never (unchecked ts) = DDone out \/
                  drain fuel (file_env q f s) never (unchecked ts) = DMore) /\
    (forall pre x post, out = pre ++ TIdent x :: post ->
       equ_at q f s x = None \/ exists post', post = TEqu :: post').
Proof.
  intros ds q f s ts Hh Ho. apply history_inv in Hh.
  destruct (ranked_at _ _ _ _ Hh Ho) as (rank & Hrank).
  destruct (expansion_exists (fun _ => None) (equ_at q f s) rank Hrank ts) as (out & Hout).
  exists out. split; [exact Hout|].
  assert (Hd : drains (file_env q f s) never (unchecked ts) out).
  { apply expansion_drains; [discriminate|apply (file_env_ok ds q f s Hh)|exact Hout]. }
  destruct Hd as (fuel & Hd). rewrite cut_never in Hd.
  split; [exists fuel; exact Hd|]. split.
  - intros fuel'. destruct (drain fuel' (file_env q f s) never (unchecked ts)) as [o| |] eqn:E.
    + left. destruct (Nat.le_ge_cases fuel fuel') as [Hle|Hge].
      * rewrite (drain_le _ _ _ _ _ _ Hd) in E by (discriminate || exact Hle). congruence.
      * apply (drain_le _ _ _ fuel) in E; [congruence|discriminate|exact Hge].
    + exfalso. destruct (Nat.le_ge_cases fuel fuel') as [Hle|Hge].
      * rewrite (drain_le _ _ _ _ _ _ Hd) in E by (discriminate || exact Hle). congruence.
      * apply (drain_le _ _ _ fuel) in E; [congruence|discriminate|exact Hge].
    + right. reflexivity.
  - eapply (drain_sound (file_env q f s) eq_refl (fun _ => True)); [| |apply fresh_unchecked| |exact Hd].
    + intros x w _. apply Forall_forall. auto.
    + reflexivity.
    + apply Forall_forall. auto.
Qed.

(** Declaring an equ always finishes. *)
Lemma declaration_ends : forall ds q r value, equ_history ds q -> ordered ds (r_file r) (r_section r) ->
  exists fuel out, drain fuel (file_env q (r_file r) (r_section r)) is_separator (unchecked value) = DDone out.
Proof.
  intros ds q r value Hh Ho. apply history_inv in Hh.
  destruct (ranked_at _ _ _ _ Hh Ho) as (rank & Hrank).
  destruct (expansion_exists (fun _ => None) (equ_at q (r_file r) (r_section r)) rank Hrank value) as (out & Hout).
  assert (Hd : drains (file_env q (r_file r) (r_section r)) is_separator (unchecked value) out).
  { apply expansion_drains; [discriminate|apply (file_env_ok ds q _ _ Hh)|exact Hout]. }
  destruct Hd as (fuel & Hd). eauto.
Qed.

(** ** Macro bodies *)

Lemma macro_expansion : forall ds q f s reps ts,
  equ_history ds q -> ordered ds f s ->
  (forall x v, find_replacement x reps = Some v ->
     v <> [] /\ forall y, In (TIdent y) v -> find_replacement y reps = None /\ equ_at q f s y = None) ->
  exists out,
    expansion (fun x => find_replacement x reps) (equ_at q f s) ts out /\
    exists fuel, drain fuel (mkEnv reps (equ_at q f s)) never (unchecked ts) = DDone out.
Proof.
  intros ds q f s reps ts Hh Ho Hr. apply history_inv in Hh.
  destruct (ranked_at _ _ _ _ Hh Ho) as (rank & Hrank).
  destruct (expansion_exists (fun x => find_replacement x reps) (equ_at q f s) rank Hrank ts) as (out & Hout).
  exists out. split; [exact Hout|].
  assert (Hd : drains (mkEnv reps (equ_at q f s)) never (unchecked ts) out).
  { apply expansion_drains; [exact Hr|apply (file_env_ok ds q f s Hh)|exact Hout]. }
  destruct Hd as (fuel & Hd). rewrite cut_never in Hd. eauto.
Qed.

(** ** Divergence *)

Definition self_env : env := mkEnv [("a"%string, [TInt 1; TPlus; TIdent "a"])] (fun _ => None).
Lemma process_checked : forall f e t r, process (S f) e ((t, true) :: r) = PDone ((t, true) :: r).
Proof. reflexivity. Qed.
Lemma self_argument_diverges : forall n fuel, (fuel <= n)%nat ->
  drain fuel self_env never [(TIdent "a", false)] = DMore.
Proof.
  induction n as [|n IH]; intros fuel Hf.
  - destruct fuel; [reflexivity|lia].
  - destruct fuel as [|[|[|fuel]]]; try reflexivity.
    rewrite drain_S.
    change (process (S (S (S fuel))) self_env [(TIdent "a", false)])
      with (PDone [(TInt 1, true); (TPlus, false); (TIdent "a", false)]).
    cbv beta iota. change (never (TInt 1)) with false. cbv iota. rewrite drain_S.
    change (process (S (S fuel)) self_env [(TPlus, false); (TIdent "a", false)])
      with (PDone [(TPlus, true); (TIdent "a", false)]).
    cbv beta iota. change (never TPlus) with false. cbv iota.
    rewrite IH by lia. reflexivity.
Qed.

(** Two names that stand for each other. *)
Lemma mutual_diverges : forall e x y, e_replacements e = [] ->
  e_equ e x = Some [TIdent y] -> e_equ e y = Some [TIdent x] ->
  forall fuel, process fuel e [(TIdent x, false)] = PMore /\ process fuel e [(TIdent y, false)] = PMore.
Proof.
  intros e x y Ha Hx Hy. induction fuel as [|fuel [IHx IHy]]; [split; reflexivity|].
  rewrite !process_S, Ha. cbn [is_ident find_replacement is_equ]. rewrite Hx, Hy. split; assumption.
Qed.

(** ** Looking ahead does not change what is read *)

Lemma process_idem : forall e f l l', e_replacements e = [] -> process f e l = PDone l' ->
  process 1 e l' = PDone l'.
Proof.
  intros e f. induction f as [|f IH]; intros l l' Ha H; [discriminate|].
  rewrite process_S in H. rewrite Ha in H. cbn [find_replacement] in H.
  destruct l as [|[t [|]] r]; [injection H as <-; reflexivity|injection H as <-; reflexivity|].
  destruct (is_ident t) as [x|] eqn:E; [|injection H as <-; reflexivity].
  destruct (e_equ e x) as [w|] eqn:Ex; [|injection H as <-; reflexivity].
  destruct (is_equ r) eqn:Er.
  - injection H as <-. rewrite process_S, Ha, E. cbn [find_replacement]. rewrite Ex, Er. reflexivity.
  - destruct w; [discriminate|]. eapply IH; eassumption.
Qed.
Lemma process_le : forall e f g l l', process f e l = PDone l' -> (f <= g)%nat -> process g e l = PDone l'.
Proof. intros e f g l l' H Hle. induction Hle; [exact H|]. apply process_mono. assumption. Qed.
Lemma process_det : forall e f g l a b, process f e l = PDone a -> process g e l = PDone b -> a = b.
Proof.
  intros e f g l a b Ha Hb. destruct (Nat.le_ge_cases f g) as [H|H].
  - apply (process_le _ _ g) in Ha; [congruence|exact H].
  - apply (process_le _ _ f) in Hb; [congruence|exact H].
Qed.

Lemma peek_keeps : forall e stop k g l l' f o, e_replacements e = [] ->
  peek_process k g e l = PDone l' -> drain f e stop l = DDone o ->
  exists f', drain f' e stop l' = DDone o.
Proof.
  intros e stop k. induction k as [|k IH]; intros g l l' f o Ha Hp Hd.
  - cbn [peek_process] in Hp. destruct (process g e l) as [l1| |] eqn:E; try discriminate.
    assert (l1 = l').
    { destruct l1; congruence. } subst l1. clear Hp.
    destruct f as [|f]; [discriminate|]. exists (S f). rewrite drain_S in *.
    destruct (process (S f) e l) as [l2| |] eqn:E2; try discriminate.
    assert (l2 = l') by (eapply process_det; eassumption). subst l2.
    rewrite (process_le _ 1 (S f) l' l' (process_idem _ _ _ _ Ha E)) by lia. exact Hd.
  - cbn [peek_process] in Hp. destruct (process g e l) as [l1| |] eqn:E; try discriminate.
    destruct f as [|f]; [discriminate|]. rewrite drain_S in Hd.
    destruct (process (S f) e l) as [l2| |] eqn:E2; try discriminate.
    assert (l2 = l1) by (eapply process_det; eassumption). subst l2.
    destruct l1 as [|[t c] r].
    + injection Hp as <-. exists 1%nat. rewrite drain_S. exact Hd.
    + destruct (peek_process k g e r) as [r'| |] eqn:Ep; try discriminate. injection Hp as <-.
      assert (Hidem : process 1 e (@cons ctoken (t, c) r') = PDone (@cons ctoken (t, c) r')).
      { apply (process_idem _ _ _ _ Ha) in E. rewrite process_S in *. rewrite Ha in *. cbn [find_replacement] in *.
        destruct c; [reflexivity|]. destruct (is_ident t) as [x|]; [|discriminate E].
        destruct (e_equ e x) as [w|]; [|discriminate E].
        destruct (is_equ r) eqn:Er; [|destruct w; discriminate E].
        assert (Hr' : is_equ r' = true).
        { destruct r as [|[t2 c2] r]; [discriminate|]. destruct t2; try discriminate.
          destruct g as [|g]; [destruct k; discriminate|].
          destruct k as [|k], c2; cbn [peek_process process is_ident] in Ep; try (injection Ep as <-; reflexivity);
            destruct (peek_process k (S g) e r); try discriminate; injection Ep as <-; reflexivity. }
        rewrite Hr'. reflexivity. }
      destruct (stop t) eqn:Es.
      * exists 1%nat. rewrite drain_S, Hidem, Es. exact Hd.
      * destruct (drain f e stop r) as [o1| |] eqn:Ed; try discriminate.
        destruct (IH g r r' f o1 Ha Ep Ed) as (f' & Hf').
        exists (S f'). rewrite drain_S, (process_le _ 1 (S f') _ _ Hidem), Es, Hf' by lia. exact Hd.
Qed.
