(** Proofs about the command line. *)

Require Import ZArith List String Ascii Bool Lia Permutation.
From Verif Require Import Ints Res ParseModel LexModel SymModel SymSpec SymProofs ExpandModel CliModel CliSpec.
Import ListNotations.
Local Open Scope string_scope.
Local Open Scope list_scope.

Lemma bind_ok {A B} (r : res A) (f : A -> res B) b : rbind r f = ROk b -> exists a, r = ROk a /\ f a = ROk b.
Proof. destruct r; cbn; intros H; try discriminate. eauto. Qed.

Lemma dashed_first s : Ascii.eqb (nth_char s 0) "-" = true <-> dashed s.
Proof. destruct s as [|c s]; cbn; [split; [discriminate|tauto]|]. rewrite Ascii.eqb_eq. tauto. Qed.
Lemma last_cons {A} (l : list A) x d : last (x :: l) d = last l x.
Proof. revert x d. induction l as [|y l IH]; intros x d; [reflexivity|]. change (last (x :: y :: l) d) with (last (y :: l) d). rewrite !IH. reflexivity. Qed.

Section Machine.
  Variable chdir : string -> string -> option string.

  (** One item. *)
  Definition apply (i : item) (s : settings) : res settings :=
    match i with
    | Temp f => ROk (set_temp f s) | Sym f => ROk (set_sym f 1 s) | Sym2 f => ROk (set_sym f 2 s)
    | Root d => match chdir (s_dir s) d with Some d => ROk (set_dir d s) | None => RErr end
    | Equ n v => add_equ n v s | StrEqu n v => add_equ n (quoted v) s | DefineLabel n v => add_definition n v s
    | ErrorOnWarning => ROk (set_strict s) | Stat => ROk (set_stat s) | Time => ROk s
    | Input f => if String.eqb (s_input s) "" then ROk (set_input f s) else RErr
    end.
  Fixpoint apply_all (l : list item) (s : settings) : res settings :=
    match l with [] => ROk s | i :: l => do s <- apply i s; apply_all l s end.

  Lemma option_first i : ~ is_input i -> exists a w, words i = a :: w /\ Ascii.eqb (nth_char a 0) "-" = true /\ String.eqb a "--" = false.
  Proof. destruct i; cbn; intros H; try (eexists _, _; split; [reflexivity|split; reflexivity]). contradiction. Qed.
  Lemma read_option i ws s : ~ is_input i -> parse_args chdir true (words i ++ ws) s = do s <- apply i s; parse_args chdir true ws s.
  Proof.
    destruct i; cbn [words app is_input]; intros H; try contradiction; try reflexivity.
    cbn [apply]. change (parse_args chdir true ("-root" :: dir :: ws) s) with
      (match chdir (s_dir s) dir with None => RErr | Some d => parse_args chdir true ws (set_dir d s) end).
    destruct (chdir (s_dir s) dir); reflexivity.
  Qed.
  Lemma written_read o l ws : written o l ws -> forall s, parse_args chdir o ws s = apply_all l s.
  Proof.
    induction 1 as [o|i l ws I W IH|o f l ws F W IH|l ws W IH]; intros s; cbn [apply_all].
    - reflexivity.
    - rewrite read_option by exact I. destruct (apply i s); cbn [rbind]; [apply IH|reflexivity|reflexivity].
    - assert (E : (o && Ascii.eqb (nth_char f 0) "-") = false).
      { destruct F as [-> |F]; [reflexivity|]. apply andb_false_iff. right. destruct (Ascii.eqb (nth_char f 0) "-") eqn:E; [|reflexivity].
        apply dashed_first in E. contradiction. }
      cbn [parse_args apply]. rewrite E. destruct (String.eqb (s_input s) ""); cbn [rbind]; [apply IH|reflexivity].
    - apply IH.
  Qed.
  Lemma read_written : forall n args, (List.length args <= n)%nat -> forall o s s', parse_args chdir o args s = ROk s' -> exists l, written o l args.
  Proof.
    induction n as [|n IH]; intros args L o s s' H.
    - destruct args; [exists []; constructor|cbn in L; lia].
    - destruct args as [|a rest]; [exists []; constructor|]. cbn [List.length] in L. cbn [parse_args] in H.
      destruct (o && Ascii.eqb (nth_char a 0) "-") eqn:D.
      + apply andb_prop in D. destruct D as [-> D].
        repeat match type of H with
               | (if String.eqb a ?x then _ else _) = _ => destruct (String.eqb_spec a x) as [-> |]
               end.
        * destruct (IH rest ltac:(lia) _ _ _ H) as [l W]. exists l. apply written_dashes, W.
        * destruct (IH rest ltac:(lia) _ _ _ H) as [l W]. exists (ErrorOnWarning :: l). apply (written_option ErrorOnWarning); [cbn; tauto|exact W].
        * destruct (IH rest ltac:(lia) _ _ _ H) as [l W]. exists (Stat :: l). apply (written_option Stat); [cbn; tauto|exact W].
        * destruct (IH rest ltac:(lia) _ _ _ H) as [l W]. exists (Time :: l). apply (written_option Time); [cbn; tauto|exact W].
        * destruct rest as [|x rest]; [discriminate|]. cbn [List.length] in L.
          repeat match type of H with
                 | (if String.eqb a ?x then _ else _) = _ => destruct (String.eqb_spec a x) as [-> |]
                 end.
          -- destruct (IH rest ltac:(lia) _ _ _ H) as [l W]. exists (Temp x :: l). apply (written_option (Temp x)); [cbn; tauto|exact W].
          -- destruct (IH rest ltac:(lia) _ _ _ H) as [l W]. exists (Sym x :: l). apply (written_option (Sym x)); [cbn; tauto|exact W].
          -- destruct (IH rest ltac:(lia) _ _ _ H) as [l W]. exists (Sym2 x :: l). apply (written_option (Sym2 x)); [cbn; tauto|exact W].
          -- destruct (chdir (s_dir s) x) as [d|]; [|discriminate].
             destruct (IH rest ltac:(lia) _ _ _ H) as [l W]. exists (Root x :: l). apply (written_option (Root x)); [cbn; tauto|exact W].
          -- destruct rest as [|y rest]; [discriminate|]. cbn [List.length] in L.
             repeat match type of H with
                    | (if String.eqb a ?x then _ else _) = _ => destruct (String.eqb_spec a x) as [-> |]
                    end; try discriminate; apply bind_ok in H; destruct H as (s1 & _ & H); destruct (IH rest ltac:(lia) _ _ _ H) as [l W].
             ++ exists (Equ x y :: l). apply (written_option (Equ x y)); [cbn; tauto|exact W].
             ++ exists (StrEqu x y :: l). apply (written_option (StrEqu x y)); [cbn; tauto|exact W].
             ++ exists (DefineLabel x y :: l). apply (written_option (DefineLabel x y)); [cbn; tauto|exact W].
      + destruct (String.eqb (s_input s) ""); [|discriminate].
        destruct (IH rest ltac:(lia) _ _ _ H) as [l W]. exists (Input a :: l). apply written_file; [|exact W].
        apply andb_false_iff in D. destruct D as [-> |D]; [left; reflexivity|right]. intros E. apply dashed_first in E. congruence.
  Qed.
  Lemma read_iff o args s s' : parse_args chdir o args s = ROk s' <-> exists l, written o l args /\ apply_all l s = ROk s'.
  Proof.
    split.
    - intros H. destruct (read_written _ args (le_n _) o s s' H) as [l W]. exists l. split; [exact W|]. rewrite <- (written_read _ _ _ W). exact H.
    - intros (l & W & H). rewrite (written_read _ _ _ W). exact H.
  Qed.

  (** ** The meaning of the items together *)

  Definition labelled (x : string * string) (y : string * Z) : Prop := fst x = fst y /\ label_value (snd x) = ROk (Some (snd y)).
  Definition good (l : list string) : Prop := NoDup l /\ Forall (fun n => valid_name n = true) l.
  Definition inputs (f : string) (l : list string) (f' : string) : Prop :=
    if String.eqb f "" then exists k, l = repeat "" k ++ (if String.eqb f' "" then [] else [f']) else l = [] /\ f' = f.
  Definition means (s : settings) (l : list item) (s' : settings) : Prop :=
    s_temp s' = final temp_of (s_temp s) l /\
    (s_sym s', s_version s') = final sym_of (s_sym s, s_version s) l /\
    s_strict s' = final strict_of (s_strict s) l /\ s_stat s' = final stat_of (s_stat s) l /\
    s_equs s' = s_equs s ++ pick equ_of l /\ good (map fst (s_equs s')) /\
    (exists m, s_labels s' = s_labels s ++ m /\ Forall2 labelled (pick label_of l) m) /\ good (map fst (s_labels s')) /\
    inputs (s_input s) (pick input_of l) (s_input s') /\
    directory chdir (s_dir s) (pick root_of l) (s_dir s').
  Definition fine (s : settings) : Prop := good (map fst (s_equs s)) /\ good (map fst (s_labels s)).

  Lemma given_in {A} n (l : list (string * A)) : given n l = true <-> In n (map fst l).
  Proof.
    unfold given. rewrite existsb_exists, in_map_iff. split.
    - intros (x & I & E). apply String.eqb_eq in E. exists x. auto.
    - intros (x & E & I). exists x. split; [exact I|]. apply String.eqb_eq. auto.
  Qed.
  Lemma good_app l m : good (l ++ m) -> good l /\ good m.
  Proof.
    intros [N F]. apply Forall_app in F. destruct F as [F1 F2].
    induction l as [|a l IH]; [split; split; auto; constructor|]. cbn [app] in N. inversion N as [|? ? N1 N2]; subst. inversion F1 as [|? ? V1 V2]; subst.
    destruct (IH N2 V2) as [[A1 A2] B]. split; [|exact B]. split; [constructor; [|exact A1]|exact F1]. intros I. apply N1, in_app_iff. auto.
  Qed.
  Lemma good_snoc l n : good (l ++ [n]) <-> good l /\ ~ In n l /\ valid_name n = true.
  Proof.
    unfold good. rewrite Forall_app. split.
    - intros (N & F & V). inversion V as [|? ? V1 _]; subst. apply NoDup_remove in N. rewrite app_nil_r in N. tauto.
    - intros ((N & F) & I & V). split; [|split; [exact F|constructor; [exact V|constructor]]].
      apply Permutation_NoDup with (l := n :: l); [apply Permutation_cons_append|]. constructor; assumption.
  Qed.
  Lemma add_equ_ok n v s s1 : good (map fst (s_equs s)) -> (add_equ n v s = ROk s1 <-> good (map fst (s_equs s) ++ [n]) /\ s1 = push_equ n v s).
  Proof.
    intros G. rewrite good_snoc. unfold add_equ. destruct (valid_name n) eqn:V; cbn [negb]; [|split; [discriminate|intros ((_ & _ & H) & _); discriminate]].
    destruct (given n (s_equs s)) eqn:I.
    - apply given_in in I. split; [discriminate|]. tauto.
    - assert (N : ~ In n (map fst (s_equs s))) by (rewrite <- given_in; congruence). split; [intros H; injection H as <-; tauto|intros (_ & ->); reflexivity].
  Qed.
  Lemma add_definition_ok n v s s1 : good (map fst (s_labels s)) ->
    (add_definition n v s = ROk s1 <-> good (map fst (s_labels s) ++ [n]) /\ exists z, label_value v = ROk (Some z) /\ s1 = push_label n z s).
  Proof.
    intros G. rewrite good_snoc. unfold add_definition. destruct (valid_name n) eqn:V; cbn [negb]; [|split; [discriminate|intros ((_ & _ & H) & _); discriminate]].
    destruct (given n (s_labels s)) eqn:I.
    - apply given_in in I. split; [discriminate|]. tauto.
    - assert (N : ~ In n (map fst (s_labels s))) by (rewrite <- given_in; congruence).
      destruct (label_value v) as [[z|]| |]; cbn [rbind]; split; intros H; try discriminate.
      + injection H as <-. split; [auto|]. exists z. split; reflexivity.
      + destruct H as (_ & z' & E & ->). injection E as ->. reflexivity.
      + destruct H as (_ & z' & E & _). discriminate.
      + destruct H as (_ & z' & E & _). discriminate.
      + destruct H as (_ & z' & E & _). discriminate.
  Qed.

  Lemma means_nil s s' : fine s -> (means s [] s' <-> s' = s).
  Proof.
    intros [G1 G2]. unfold means, final, pick, inputs. cbn [flat_map last]. split.
    - intros (A & B & C & D & E & _ & (m & F1 & F2) & _ & H & I). inversion F2; subst. rewrite app_nil_r in E, F1. injection B as B1 B2.
      inversion I; subst. assert (J : s_input s' = s_input s).
      { destruct (String.eqb_spec (s_input s) "") as [Z|Z]; [|exact (proj2 H)]. destruct H as [k H].
        destruct (String.eqb_spec (s_input s') "") as [Y|Y]; [congruence|]. destruct k; discriminate. }
      destruct s, s'; cbn in *; congruence.
    - intros ->. rewrite !app_nil_r. do 5 (split; [reflexivity|]). split; [exact G1|]. split; [exists []; rewrite app_nil_r; split; [reflexivity|constructor]|].
      split; [exact G2|]. split; [|constructor]. destruct (String.eqb_spec (s_input s) ""); [exists O|]; auto.
  Qed.

  Lemma apply_fine i s s1 : fine s -> apply i s = ROk s1 -> fine s1.
  Proof.
    intros G. destruct i as [f|f|f|d|n v|n v|n v| | | |f]; cbn [apply]; intros H; try (injection H as <-; exact G).
    - destruct (chdir (s_dir s) d); [injection H as <-; exact G|discriminate].
    - apply add_equ_ok in H; [|apply G]. destruct H as (H & ->). split; [cbn [s_equs push_equ]; rewrite map_app; exact H|apply G].
    - apply add_equ_ok in H; [|apply G]. destruct H as (H & ->). split; [cbn [s_equs push_equ]; rewrite map_app; exact H|apply G].
    - apply add_definition_ok in H; [|apply G]. destruct H as (H & z & _ & ->). split; [apply G|cbn [s_labels push_label]; rewrite map_app; exact H].
    - destruct (String.eqb (s_input s) ""); [injection H as <-; exact G|discriminate].
  Qed.
  Lemma pick_some {A} (f : item -> option A) i l x : f i = Some x -> pick f (i :: l) = x :: pick f l.
  Proof. intros E. unfold pick. cbn [flat_map]. rewrite E. reflexivity. Qed.
  Lemma pick_none {A} (f : item -> option A) i l : f i = None -> pick f (i :: l) = pick f l.
  Proof. intros E. unfold pick. cbn [flat_map]. rewrite E. reflexivity. Qed.
  Lemma inputs_more f l f' : inputs "" (f :: l) f' <-> inputs f l f'.
  Proof.
    unfold inputs. rewrite String.eqb_refl. destruct (String.eqb_spec f "") as [-> |N].
    - split; intros [k H].
      + destruct k as [|k]; [|exists k; injection H as H; exact H].
        destruct (String.eqb_spec f' "") as [E|E]; [discriminate|]. cbn [repeat app] in H. injection H as H _. congruence.
      + exists (S k). cbn [repeat app]. rewrite H. reflexivity.
    - split.
      + intros [k H]. destruct k as [|k]; [|cbn [repeat app] in H; injection H as H _; congruence].
        destruct (String.eqb f' ""); [discriminate|]. cbn [repeat app] in H. injection H as <- ->. auto.
      + intros [-> ->]. exists O. cbn [repeat app]. destruct (String.eqb_spec f ""); [contradiction|]. reflexivity.
  Qed.
  Ltac picks := repeat first [rewrite (pick_some temp_of) with (x := _) by reflexivity | rewrite (pick_none temp_of) by reflexivity
    | rewrite (pick_some sym_of) with (x := _) by reflexivity | rewrite (pick_none sym_of) by reflexivity
    | rewrite (pick_some root_of) with (x := _) by reflexivity | rewrite (pick_none root_of) by reflexivity
    | rewrite (pick_some input_of) with (x := _) by reflexivity | rewrite (pick_none input_of) by reflexivity
    | rewrite (pick_some equ_of) with (x := _) by reflexivity | rewrite (pick_none equ_of) by reflexivity
    | rewrite (pick_some label_of) with (x := _) by reflexivity | rewrite (pick_none label_of) by reflexivity
    | rewrite (pick_some strict_of) with (x := _) by reflexivity | rewrite (pick_none strict_of) by reflexivity
    | rewrite (pick_some stat_of) with (x := _) by reflexivity | rewrite (pick_none stat_of) by reflexivity].

  Lemma means_cons s i l s' : fine s -> (means s (i :: l) s' <-> exists s1, apply i s = ROk s1 /\ fine s1 /\ means s1 l s').
  Proof.
    intros G.
    assert (SIMPLE : forall s1, apply i s = ROk s1 -> fine s1 -> (means s (i :: l) s' <-> means s1 l s') ->
      (means s (i :: l) s' <-> exists s1, apply i s = ROk s1 /\ fine s1 /\ means s1 l s')).
    { intros s1 E F H. rewrite H. split; [intros M; exists s1; auto|]. intros (s2 & E2 & _ & M). rewrite E in E2. injection E2 as <-. exact M. }
    assert (EQU : forall n w, (forall s, apply i s = add_equ n w s) -> equ_of i = Some (n, w) ->
      temp_of i = None -> sym_of i = None -> root_of i = None -> input_of i = None -> label_of i = None -> strict_of i = None -> stat_of i = None ->
      (means s (i :: l) s' <-> exists s1, apply i s = ROk s1 /\ fine s1 /\ means s1 l s')).
    { intros n w AP Q1 Q2 Q3 Q4 Q5 Q6 Q7 Q8. unfold means, final. rewrite (pick_some equ_of _ _ _ Q1), !pick_none by assumption. rewrite AP. split.
      - intros (A & B & C & D & E & F & M & H & I & J).
        assert (P : s_equs s' = s_equs (push_equ n w s) ++ pick equ_of l) by (cbn [s_equs push_equ]; rewrite <- app_assoc; exact E).
        assert (G1 : good (map fst (s_equs s) ++ [n])) by (rewrite P in F; cbn [s_equs push_equ] in F; rewrite !map_app in F; apply good_app in F; exact (proj1 F)).
        exists (push_equ n w s). split; [apply add_equ_ok; [apply G|auto]|].
        split; [split; [cbn [s_equs push_equ]; rewrite map_app; exact G1|apply G]|].
        do 4 (split; [assumption|]). split; [exact P|]. auto.
      - intros (s1 & E1 & F1 & A & B & C & D & E & F & M & H & I & J). apply add_equ_ok in E1; [|apply G]. destruct E1 as (G1 & ->).
        do 4 (split; [assumption|]). split; [rewrite E; cbn [s_equs push_equ]; rewrite <- app_assoc; reflexivity|]. auto. }
    destruct i as [f|f|f|d|n v|n v|n v| | | |f].
    - apply SIMPLE with (s1 := set_temp f s); [reflexivity|exact G|]. unfold means, final. picks. rewrite last_cons. reflexivity.
    - apply SIMPLE with (s1 := set_sym f 1 s); [reflexivity|exact G|]. unfold means, final. picks. rewrite last_cons. reflexivity.
    - apply SIMPLE with (s1 := set_sym f 2 s); [reflexivity|exact G|]. unfold means, final. picks. rewrite last_cons. reflexivity.
    - destruct (chdir (s_dir s) d) as [d1|] eqn:D.
      + apply SIMPLE with (s1 := set_dir d1 s); [cbn [apply]; rewrite D; reflexivity|exact G|]. unfold means, final. picks. cbn [s_temp s_sym s_version s_strict s_stat s_equs s_labels s_input s_dir set_dir].
        assert (H : directory chdir (s_dir s) (d :: pick root_of l) (s_dir s') <-> directory chdir d1 (pick root_of l) (s_dir s')).
        { split; [|intros H; econstructor; eauto]. intros H. inversion H as [|? ? d2 ? ? E H2]; subst. rewrite D in E. injection E as <-. exact H2. }
        rewrite H. reflexivity.
      + split; [|intros (s1 & E & _); cbn [apply] in E; rewrite D in E; discriminate]. unfold means. picks. intros (_ & _ & _ & _ & _ & _ & _ & _ & _ & H).
        inversion H; subst. congruence.
    - apply EQU with (n := n) (w := v); reflexivity.
    - apply EQU with (n := n) (w := quoted v); reflexivity.
    - cbn [apply]. split.
      + unfold means, final. picks. intros (A & B & C & D & E & F & (m & M1 & M2) & H & I & J).
        inversion M2 as [|x [n' z] y m2 [X1 X2] X3 X4 X5]; subst. cbn [fst snd] in X1, X2. subst n'.
        assert (P : s_labels s' = s_labels (push_label n z s) ++ m2) by (cbn [s_labels push_label]; rewrite <- app_assoc; exact M1).
        assert (G1 : good (map fst (s_labels s) ++ [n])) by (rewrite P in H; cbn [s_labels push_label] in H; rewrite !map_app in H; apply good_app in H; exact (proj1 H)).
        exists (push_label n z s). split; [apply add_definition_ok; [apply G|]; split; [exact G1|]; exists z; split; [exact X2|reflexivity]|].
        split; [split; [apply G|cbn [s_labels push_label]; rewrite map_app; exact G1]|].
        unfold means, final. do 6 (split; [assumption|]). split; [exists m2; split; [exact P|exact X3]|]. auto.
      + intros (s1 & E & F & M). apply add_definition_ok in E; [|apply G]. destruct E as (G1 & z & X & ->).
        unfold means, final in M |- *. picks. destruct M as (A & B & C & D & E & H & (m & M1 & M2) & I & J & K).
        do 6 (split; [assumption|]). split; [|auto]. exists ((n, z) :: m). split; [rewrite M1; cbn [s_labels push_label]; rewrite <- app_assoc; reflexivity|].
        constructor; [split; [reflexivity|exact X]|exact M2].
    - apply SIMPLE with (s1 := set_strict s); [reflexivity|exact G|]. unfold means, final. picks. rewrite last_cons. reflexivity.
    - apply SIMPLE with (s1 := set_stat s); [reflexivity|exact G|]. unfold means, final. picks. rewrite last_cons. reflexivity.
    - apply SIMPLE with (s1 := s); [reflexivity|exact G|]. unfold means, final. picks. reflexivity.
    - cbn [apply]. unfold means, final. picks. split.
      + intros (A & B & C & D & E & F & M & H & I & J). unfold inputs in I at 1.
        destruct (String.eqb (s_input s) "") eqn:Z.
        * assert (I2 : inputs "" (f :: pick input_of l) (s_input s')) by (unfold inputs; rewrite String.eqb_refl; exact I). apply (proj1 (inputs_more _ _ _)) in I2.
          exists (set_input f s). split; [reflexivity|]. split; [exact G|]. do 8 (split; [assumption|]). split; [exact I2|exact J].
        * destruct I; discriminate.
      + intros (s1 & E1 & F1 & A & B & C & D & E & F & M & H & I & J).
        destruct (String.eqb_spec (s_input s) "") as [Z|Z]; [|discriminate]. injection E1 as <-.
        do 8 (split; [assumption|]). split; [|assumption]. rewrite Z. apply inputs_more. exact I.
  Qed.
  Lemma apply_means : forall l s s', fine s -> (apply_all l s = ROk s' <-> means s l s').
  Proof.
    induction l as [|i l IH]; intros s s' G; cbn [apply_all].
    - rewrite means_nil by exact G. split; [intros H; injection H as ->; reflexivity|intros ->; reflexivity].
    - rewrite means_cons by exact G. split.
      + intros H. apply bind_ok in H. destruct H as (s1 & E & H). exists s1. split; [exact E|].
        assert (F : fine s1) by exact (apply_fine i s s1 G E). split; [exact F|]. apply IH; assumption.
      + intros (s1 & E & F & M). rewrite E. cbn [rbind]. apply IH; assumption.
  Qed.

  Lemma start_fine dir : fine (initial dir).
  Proof. split; split; constructor. Qed.
  Variable file_exists : string -> string -> bool.
  Theorem command_line dir args s : parse_arguments chdir file_exists dir args = ROk s <->
    exists l, written true l args /\
      s_temp s = final temp_of "" l /\ (s_sym s, s_version s) = final sym_of ("", 0%Z) l /\
      s_strict s = final strict_of false l /\ s_stat s = final stat_of false l /\
      s_equs s = pick equ_of l /\ good (map fst (s_equs s)) /\
      Forall2 labelled (pick label_of l) (s_labels s) /\ good (map fst (s_labels s)) /\
      (s_input s <> "" /\ exists k, pick input_of l = repeat "" k ++ [s_input s]) /\
      directory chdir dir (pick root_of l) (s_dir s) /\ file_exists (s_dir s) (s_input s) = true.
  Proof.
    unfold parse_arguments. split.
    - intros H. apply bind_ok in H. destruct H as (s1 & R & H).
      destruct (String.eqb_spec (s_input s1) "") as [E|E]; [discriminate|]. destruct (file_exists (s_dir s1) (s_input s1)) eqn:X; [|discriminate].
      injection H as <-. apply read_iff in R. destruct R as (l & W & R). apply apply_means in R; [|apply start_fine].
      destruct R as (A & B & C & D & F & G & (m & M1 & M2) & I & J & K). exists l. split; [exact W|].
      do 6 (split; [assumption|]). split; [rewrite M1; exact M2|]. split; [exact I|]. split; [split; [exact E|]|split; [exact K|exact X]].
      unfold inputs in J. cbn [initial s_input] in J. rewrite String.eqb_refl in J. destruct (String.eqb_spec (s_input s1) ""); [contradiction|exact J].
    - intros (l & W & A & B & C & D & F & G & M & I & (E & J) & K & X).
      assert (R : parse_args chdir true args (initial dir) = ROk s).
      { apply read_iff. exists l. split; [exact W|]. apply apply_means; [apply start_fine|]. do 6 (split; [assumption|]).
        split; [exists (s_labels s); split; [reflexivity|exact M]|]. split; [exact I|]. split; [|exact K].
        unfold inputs. cbn [initial s_input]. rewrite String.eqb_refl. destruct (String.eqb_spec (s_input s) ""); [contradiction|exact J]. }
      rewrite R. cbn [rbind]. destruct (String.eqb_spec (s_input s) ""); [contradiction|]. rewrite X. reflexivity.
  Qed.
End Machine.
