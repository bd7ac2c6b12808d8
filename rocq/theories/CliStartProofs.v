(** Proofs about the equs and labels of the command line. *)

Require Import ZArith List String Ascii Bool Lia.
From Coq Require Import Floats.SpecFloat.
From Verif Require Import Ints Res ParseModel LexModel LexSpec LexProofs SymModel SymSpec SymIface SymProofs ExpandModel TextSpec TextProofs CliModel CliSpec CliProofs.
Import ListNotations.
Local Open Scope string_scope.
Local Open Scope list_scope.

(** ** The items of a command line are unique *)
Lemma words_unique i j ws1 ws2 : ~ is_input i -> ~ is_input j -> words i ++ ws1 = words j ++ ws2 -> i = j /\ ws1 = ws2.
Proof.
  destruct i, j; cbn [words app is_input]; intros I J H; try (exfalso; auto; fail); try discriminate H; injection H; intros; subst; auto.
Qed.
Lemma words_dashed i ws f ws' : ~ is_input i -> words i ++ ws = f :: ws' -> dashed f.
Proof. destruct i; cbn [words app is_input]; intros I H; try contradiction; injection H; intros; subst; reflexivity. Qed.
Lemma words_dashes i ws ws' : ~ is_input i -> words i ++ ws <> "--" :: ws'.
Proof. destruct i; cbn [words app is_input]; intros I H; try contradiction; discriminate. Qed.
Lemma written_unique o l1 ws : written o l1 ws -> forall l2, written o l2 ws -> l1 = l2.
Proof.
  induction 1 as [o|i l ws I W IH|o f l ws F W IH|l ws W IH]; intros l2 H.
  - remember [] as w eqn:E. destruct H; try reflexivity; try discriminate. destruct i; discriminate.
  - remember (words i ++ ws) as w eqn:E. remember true as o eqn:O. destruct H as [o|i2 l2 ws2 I2 W2|o f2 l2 ws2 F2 W2|l2 ws2 W2].
    + destruct i; discriminate.
    + apply words_unique in E; auto. destruct E as [-> ->]. f_equal. auto.
    + symmetry in E. apply words_dashed in E; [|exact I]. subst o. destruct F2; [discriminate|contradiction].
    + symmetry in E. apply words_dashes in E; [contradiction|exact I].
  - remember (f :: ws) as w eqn:E. destruct H as [o|i2 l2 ws2 I2 W2|o f2 l2 ws2 F2 W2|l2 ws2 W2].
    + discriminate.
    + apply words_dashed in E; [|exact I2]. destruct F; [discriminate|contradiction].
    + injection E as -> ->. f_equal. auto.
    + injection E as <- ->. destruct F as [F|F]; [discriminate|]. exfalso. apply F. reflexivity.
  - remember ("--" :: ws) as w eqn:E. remember true as o eqn:O. destruct H as [o|i2 l2 ws2 I2 W2|o f2 l2 ws2 F2 W2|l2 ws2 W2].
    + discriminate.
    + apply words_dashes in E; [contradiction|exact I2].
    + subst o. injection E as -> ->. destruct F2 as [F2|F2]; [congruence|]. exfalso. apply F2. reflexivity.
    + injection E as ->. auto.
Qed.

Lemma same_spelling_trans a b c : same_spelling a b -> same_spelling b c -> same_spelling a c.
Proof. rewrite <- !lower_string_same. congruence. Qed.

(** ** The value of -definelabel *)
Lemma app_nil_s s : (s ++ "")%string = s.
Proof. induction s; cbn; congruence. Qed.
Lemma label_literal v base ds z : literal v base ds -> starts_with_digit v -> number_value base ds = Some z -> (z <= int64_max)%Z -> label_value v = ROk (Some z).
Proof.
  intros L S V M. assert (N : v <> "") by (intros ->; exact S). unfold label_value. destruct v as [|c v]; [contradiction|].
  rewrite <- (app_nil_s (String c v)) at 1. rewrite string_to_int_literal; [|exact N|exact I].
  eapply read_literal_value; eauto.
Qed.

(** ** Labels *)
Lemma run_app t h1 h2 : run_actions t (h1 ++ h2) = run_actions (run_actions t h1) h2.
Proof. apply fold_left_app. Qed.
Lemma add_labels_defines : forall defs t file section, exists h,
  fst (add_labels t file section defs) = run_actions t h /\
  forall a, In a h -> exists n v k, a = Define (mkRef n file k) v /\ In (n, v) defs.
Proof.
  induction defs as [|[n v] defs IH]; intros t file section.
  - exists []. split; [reflexivity|]. intros a [].
  - cbn [add_labels]. destruct (valid_name n); cbn [negb].
    2:{ destruct (IH t file section) as (h & E & H). exists h. split; [exact E|]. intros a A. destruct (H a A) as (n' & v' & k & X & Y). exists n', v', k. split; [exact X|now right]. }
    destruct (define_label t n file section v) as [t' o] eqn:E.
    assert (Hd : act t (Define (mkRef n file section) v) = t') by (cbn [act r_name r_file r_section]; rewrite E; reflexivity).
    assert (forall k, exists h, fst (add_labels t' file k defs) = run_actions t h /\
      forall a, In a h -> exists n0 v0 k0, a = Define (mkRef n0 file k0) v0 /\ In (n0, v0) ((n, v) :: defs)) as G.
    { intros k. destruct (IH t' file k) as (h & E1 & H). exists (Define (mkRef n file section) v :: h). split.
      - cbn [run_actions fold_left]. rewrite Hd. exact E1.
      - intros a [<-|A]; [exists n, v, section; split; [reflexivity|now left]|]. destruct (H a A) as (n' & v' & k' & X & Y). exists n', v', k'. split; [exact X|now right]. }
    destruct o; apply G.
Qed.

Section Start.
  Variable strtod : string -> option spec_float.

  Lemma start_equs_actions fuel : forall l q q', start_equs strtod fuel q l = ROk q' -> exists h,
    q_table q' = run_actions (q_table q) h /\ forall a, In a h -> exists n v i, a = DefineEqu (mkRef n 0 0) i /\ In (n, v) l.
  Proof.
    induction l as [|[n v] l IH]; intros q q' H; cbn [start_equs] in H.
    - injection H as <-. exists []. split; [reflexivity|]. intros a [].
    - apply bind_ok in H. destruct H as (ts & _ & H). unfold define_equ in H.
      destruct (drain _ _ _ _) as [out| |]; try discriminate. destruct (_ || _); [discriminate|].
      destruct (add_equation (q_table q) n 0 0 (List.length (q_values q))) as [t b] eqn:E.
      apply IH in H. destruct H as (h & T & H). cbn [q_table] in T.
      exists (DefineEqu (mkRef n 0 0) (List.length (q_values q)) :: h). split.
      + cbn [run_actions fold_left act r_name r_file r_section]. rewrite E. exact T.
      + intros a [<-|A]; [exists n, v, (List.length (q_values q)); split; [reflexivity|now left]|].
        destruct (H a A) as (n' & v' & i & X & Y). exists n', v', i. split; [exact X|now right].
  Qed.

  (** A symbol no action mentions keeps its state. *)
  Lemma untouched r : valid_name (r_name r) = true -> forall h t s, table_ok t -> holds t r s ->
    (forall a, In a h -> exists r', (exists v, a = Define r' v) \/ (exists i, a = DefineEqu r' i)) ->
    (forall a r', In a h -> ((exists v, a = Define r' v) \/ (exists i, a = DefineEqu r' i)) -> ~ same_symbol r r') ->
    holds (run_actions t h) r s.
  Proof.
    intros V. induction h as [|a h IH]; intros t s K H A B; [exact H|]. cbn [run_actions fold_left].
    apply IH.
    - apply (run_ok [a] t K).
    - destruct (holds_det_step t r s a K V H) as (s' & S & H'). assert (s' = s) as <-; [|exact H'].
      destruct (A a (or_introl eq_refl)) as (r0 & D). specialize (B a r0 (or_introl eq_refl) D).
      destruct D as [(v & ->)|(i & ->)]; inversion S; subst; try reflexivity; contradiction.
    - intros b I. apply A. now right.
    - intros b r' I. apply B. now right.
  Qed.

  Definition global (n : string) : Prop := match n with String c _ => c <> "@"%char | EmptyString => True end.
  Lemma global_scope n f k : global n -> scope_of (mkRef n f k) = Global.
  Proof. unfold scope_of, global. cbn [r_name]. destruct n as [|c n]; [reflexivity|]. intros G. destruct c as [[] [] [] [] [] [] [] []]; try reflexivity. contradiction G. reflexivity. Qed.
  Lemma same_global a b : same_spelling a b -> global a -> global b.
  Proof.
    intros [|x y r s L _]; [trivial|]. cbn. intros G ->. apply G. unfold same_letter in L. cbn in L.
    destruct L as [L|[L|L]]; [|lia|lia]. rewrite <- (ascii_nat_embedding x), L. reflexivity.
  Qed.
  Lemma same_sym a b : same_spelling a b -> same_spelling b a.
  Proof. induction 1 as [|a b r s L _ IH]; constructor; [|exact IH]. unfold same_letter in *. lia. Qed.

  Lemma start_label fuel s q section n v : start strtod fuel s = ROk (q, section) ->
    In (n, v) (s_labels s) -> valid_name n = true -> global n ->
    (forall m w, In (m, w) (s_labels s) -> same_spelling n m -> (m, w) = (n, v)) -> NoDup (map fst (s_labels s)) ->
    (forall m w, In (m, w) (s_equs s) -> ~ same_spelling n m) ->
    forall n' file k, same_spelling n' n -> read_label (q_table q) (mkRef n' file k) = Some (v, true).
  Proof.
    intros H IN V G U ND E n' file k S. unfold start in H. apply bind_ok in H. destruct H as (q0 & Q & H).
    destruct (add_labels (q_table q0) 0 0 (s_labels s)) as [t sec] eqn:L. injection H as <- <-. cbn [q_table].
    apply start_equs_actions in Q. destruct Q as (h & T & H).
    set (r := mkRef n' file k).
    assert (G' : global n') by (apply (same_global n); [apply same_sym; exact S|exact G]).
    assert (V' : valid_name (r_name r) = true).
    { rewrite <- V. apply (same_symbol_valid r (mkRef n file k)). split; [exact S|]. unfold r. rewrite !global_scope by assumption. reflexivity. }
    assert (Fin : holds t r (IsLabel v true)).
    2:{ apply holds_shows in Fin; [|exact V']. apply Fin. }
    assert (K0 : table_ok (q_table q0)) by (rewrite T; apply run_ok, empty_ok).
    assert (H0 : holds (q_table q0) r Unknown).
    { rewrite T. apply untouched; [exact V'|apply empty_ok|reflexivity| |].
      - intros a A. destruct (H a A) as (m & w & i & -> & _). eexists. right. eauto.
      - intros a r' A D [C _]. destruct (H a A) as (m & w & i & -> & I). destruct D as [(v0 & D)|(i0 & D)]; [discriminate|].
        injection D as <- _. cbn [r_name] in C. apply (E m w I). eapply same_spelling_trans; [apply same_sym; exact S|exact C]. }
    destruct (in_split _ _ IN) as (l1 & l2 & EL).
    assert (N1 : forall m w, In (m, w) l1 \/ In (m, w) l2 -> ~ same_spelling n m).
    { intros m w I C. assert (I' : In (m, w) (s_labels s)) by (rewrite EL; apply in_or_app; cbn; tauto).
      apply (U m w I') in C. injection C as -> ->. rewrite EL, map_app in ND. cbn [map fst] in ND. apply NoDup_remove_2 in ND. apply ND.
      apply in_or_app. destruct I as [I|I]; [left|right]; apply (in_map fst) in I; exact I. }
    assert (AP : forall a b t sec, add_labels t 0 sec (a ++ b) = let '(t', k') := add_labels t 0 sec a in add_labels t' 0 k' b).
    { induction a as [|[m w] a IHa]; intros b t0 k0; [reflexivity|]. cbn [app add_labels]. destruct (negb (valid_name m)); [apply IHa|].
      destruct (define_label t0 m 0 k0 w) as [t1 o]. destruct o; apply IHa. }
    rewrite EL, AP in L. destruct (add_labels (q_table q0) 0 0 l1) as [t1 k1] eqn:L1. cbn [add_labels] in L. rewrite V in L. cbn [negb] in L.
    destruct (add_labels_defines l1 (q_table q0) 0 0) as (h1 & T1 & D1). rewrite L1 in T1. cbn [fst] in T1.
    assert (X : forall h l, (l = l1 \/ l = l2) -> (forall a, In a h -> exists n v k, a = Define (mkRef n 0 k) v /\ In (n, v) l) ->
       forall t0 s0, table_ok t0 -> holds t0 r s0 -> holds (run_actions t0 h) r s0).
    { intros h0 l Hl D t0 s0 K1 X. apply untouched; [exact V'|exact K1|exact X| |].
      - intros a A. destruct (D a A) as (m & w & i & -> & _). eexists. left. eauto.
      - intros a r' A Da [C _]. destruct (D a A) as (m & w & i & -> & I). destruct Da as [(v0 & Da)|(i0 & Da)]; [|discriminate].
        injection Da as <- _. cbn [r_name] in C. apply (N1 m w); [destruct Hl; subst l; tauto|]. eapply same_spelling_trans; [apply same_sym; exact S|exact C]. }
    assert (H1 : holds t1 r Unknown) by (rewrite T1; apply (X h1 l1); auto).
    assert (K1 : table_ok t1) by (rewrite T1; apply run_ok; exact K0).
    destruct (define_label t1 n 0 k1 v) as [t2 o] eqn:DL.
    assert (Hd : act t1 (Define (mkRef n 0 k1) v) = t2) by (cbn [act r_name r_file r_section]; rewrite DL; reflexivity).
    assert (SS : same_symbol r (mkRef n 0 k1)) by (split; [exact S|unfold r; rewrite !global_scope by assumption; reflexivity]).
    assert (H2 : holds t2 r (IsLabel v true)).
    { rewrite <- Hd. destruct (holds_det_step t1 r Unknown (Define (mkRef n 0 k1) v) K1 V' H1) as (s' & St & H').
      inversion St; subst; try exact H'.
      match goal with A : _ \/ _ , B : ~ same_symbol _ _ |- _ => destruct A as [A|[(w & A)|(i & A)]]; try discriminate; injection A as <- <-; contradiction end. }
    assert (K2 : table_ok t2) by (rewrite <- Hd; exact (run_ok [Define (mkRef n 0 k1) v] t1 K1)).
    assert (FinG : forall k2, add_labels t2 0 k2 l2 = (t, sec) -> holds t r (IsLabel v true)).
    { intros k2 L2. destruct (add_labels_defines l2 t2 0 k2) as (h2 & T2 & D2). rewrite L2 in T2. cbn [fst] in T2. rewrite T2. apply (X h2 l2); auto. }
    destruct o; eapply FinG; exact L.
  Qed.

  (** ** -equ and the directive *)
  Lemma lex_step k s c r t rest e : skip_white (String.length s) s = (String c r, false) -> Ascii.eqb c backslash = false ->
    forall q, lex_token strtod q (String c r) = ROk (t, rest, e) -> lex_line strtod (S k) q s = do ts <- lex_line strtod k e rest; ROk (t :: ts).
  Proof. intros W B q T. cbn [lex_line]. rewrite W, B, T. reflexivity. Qed.
  Lemma scan_equ_plain v : no_comment v -> scan_equ v = (v, "").
  Proof.
    induction v as [|c v IH]; intros N; [reflexivity|]. cbn [no_comment] in N. destruct N as (N1 & N2 & N). cbn [scan_equ].
    replace (is_comment (String c v)) with false; [rewrite IH by exact N; reflexivity|].
    destruct c as [[] [] [] [] [] [] [] []]; try reflexivity; contradiction.
  Qed.
  Lemma white_none c s : is_space c = false -> c <> ";"%char -> c <> "/"%char -> skip_white (String.length (String c s)) (String c s) = (String c s, false).
  Proof.
    intros A B C. cbn [String.length skip_white]. rewrite A.
    destruct c as [[] [] [] [] [] [] [] []]; try reflexivity; contradiction.
  Qed.
  Lemma line_tokens n v : proper_name n -> equ_value v ->
    tokenize strtod (n ++ " equ " ++ v)%string = ROk [TIdent n; TEqu; TEquValue v; TSeparator].
  Proof.
    intros (P1 & P2 & P3 & _) (V1 & V2 & V3). unfold tokenize.
    destruct n as [|c n]; [contradiction|]. destruct v as [|d v]; [contradiction|].
    destruct (scan_name (String c n) true (" equ " ++ String d v)%string P2) as [S1 S2]; [cbn; auto|].
    destruct P2 as [Pc P2]. destruct (name_char_facts true c Pc) as (F1 & F2 & F3).
    destruct (symbol_no_operator c (n ++ " equ " ++ String d v)%string true F1) as (O1 & O2 & O3 & O4 & O5 & O6 & O7).
    rewrite Ascii.eqb_neq in O6, O7. rewrite andb_true_r in F3.
    match goal with |- lex_line _ ?f _ _ = _ => replace f with (S (S (S (S (f - 4))))) by (rewrite length_app_s; cbn [append String.length]; lia) end.
    change (String c n ++ " equ " ++ String d v)%string with (String c (n ++ " equ " ++ String d v)).
    rewrite (lex_step _ _ c (n ++ " equ " ++ String d v)%string (TIdent (String c n)) (" equ " ++ String d v)%string false).
    2:{ apply white_none; assumption. }
    2:{ exact O5. }
    2:{ unfold lex_token. rewrite O1, O2, O3, F3. change (String c (n ++ " equ " ++ String d v)) with (String c n ++ " equ " ++ String d v)%string.
        rewrite S1, S2. destruct (String.eqb_spec (String c n) "equ"); [contradiction|reflexivity]. }
    rewrite (lex_step _ _ "e" ("qu " ++ String d v)%string TEqu (" " ++ String d v)%string true).
    2:{ reflexivity. } 2:{ reflexivity. } 2:{ reflexivity. }
    assert (Vs : d <> ";"%char /\ d <> "/"%char) by (cbn [no_comment] in V3; tauto).
    assert (W : skip_white (String.length (" " ++ String d v)) (" " ++ String d v) = (String d v, false)).
    { pose proof (white_none d v V2 (proj1 Vs) (proj2 Vs)) as W. exact W. }
    destruct (Ascii.eqb d backslash) eqn:B.
    2:{ rewrite (lex_step _ _ d v (TEquValue (String d v)) "" false W B).
        2:{ unfold lex_token. rewrite scan_equ_plain by exact V3. reflexivity. }
        reflexivity. }
    apply Ascii.eqb_eq in B. subst d. exfalso. exact (V1 eq_refl).
  Qed.

  (** The directives, one after the other. *)
  Fixpoint source_equs (fuel : nat) (q : equs) (lines : list string) : res equs :=
    match lines with [] => ROk q | line :: lines => do q <- source_equ strtod fuel q line 0 0; source_equs fuel q lines end.

  Lemma lower_name n f : TextSpec.name_chars f n -> lower_string n = n.
  Proof. revert f. induction n as [|c n IH]; intros f H; [reflexivity|]. destruct H as [H1 H2]. cbn [lower_string].
    destruct (name_char_facts f c H1) as (_ & F & _). rewrite F, (IH false H2). reflexivity. Qed.

  Lemma equs_same fuel : forall l q, table_ok (q_table q) -> (forall n v, In (n, v) l -> proper_name n /\ valid_name n = true /\ equ_value v) ->
    NoDup (map fst l) -> (forall n v, In (n, v) l -> holds (q_table q) (mkRef n 0 0) Unknown) ->
    start_equs strtod fuel q l = source_equs fuel q (map (fun x => fst x ++ " equ " ++ snd x)%string l).
  Proof.
    induction l as [|[n v] l IH]; intros q K P ND U; [reflexivity|]. cbn [map start_equs source_equs fst snd].
    destruct (P n v (or_introl eq_refl)) as (P1 & P2 & P3). unfold source_equ. rewrite line_tokens by assumption. cbn [rbind]. rewrite P2. cbn [negb].
    pose proof (U n v (or_introl eq_refl)) as U0. apply (holds_shows (q_table q) (mkRef n 0 0) Unknown P2) in U0. destruct U0 as (U0 & _ & _). cbn [r_name r_file r_section] in U0. rewrite U0.
    destruct (tokenize strtod v) as [ts| |]; cbn [rbind]; try reflexivity.
    destruct (define_equ fuel q n 0 0 ts) as [q1|] eqn:D; cbn [rbind]; [|reflexivity].
    cbn [map fst] in ND. inversion ND as [|x y N1 N2]; subst.
    assert (T : q_table q1 = act (q_table q) (DefineEqu (mkRef n 0 0) (List.length (q_values q)))).
    { unfold define_equ in D. destruct (drain _ _ _ _) as [out| |]; try discriminate. destruct (_ || _); [discriminate|].
      destruct (add_equation (q_table q) n 0 0 (List.length (q_values q))) as [t b] eqn:E. injection D as <-. cbn [q_table act r_name r_file r_section]. rewrite E. reflexivity. }
    apply IH.
    - rewrite T. exact (run_ok [DefineEqu (mkRef n 0 0) (List.length (q_values q))] _ K).
    - intros m w I. apply (P m w). now right.
    - exact N2.
    - intros m w I. destruct (P m w (or_intror I)) as (M1 & M2 & _).
      destruct (holds_det_step (q_table q) (mkRef m 0 0) Unknown (DefineEqu (mkRef n 0 0) (List.length (q_values q))) K M2 (U m w (or_intror I))) as (s' & St & H').
      rewrite T. assert (Df : ~ same_symbol (mkRef m 0 0) (mkRef n 0 0)).
      { intros [C _]. cbn [r_name] in C. apply lower_string_same in C. rewrite (lower_name m true), (lower_name n true) in C by (apply M1 || apply P1).
        subst m. apply N1. apply (in_map fst) in I. exact I. }
      inversion St; subst; try exact H'; contradiction.
  Qed.
End Start.

(** ** The statements with the names of symbols *)
Lemma written_words o l ws : written o l ws -> forall i x, In i l -> In x (words i) -> In x ws.
Proof.
  induction 1 as [o|i l ws I W IH|o f l ws F W IH|l ws W IH]; intros j x J X.
  - destruct J.
  - apply in_or_app. destruct J as [<-|J]; [left; exact X|right; eapply IH; eauto].
  - destruct J as [<-|J]; [destruct X as [<-|[]]; now left|right; eapply IH; eauto].
  - right. eapply IH; eauto.
Qed.
Lemma in_pick {A} (f : item -> option A) l x : In x (pick f l) <-> exists i, In i l /\ f i = Some x.
Proof.
  unfold pick. rewrite in_flat_map. split; intros (i & I & H); exists i; (split; [exact I|]).
  - destruct (f i); [|contradiction]. destruct H as [->|[]]. reflexivity.
  - rewrite H. now left.
Qed.
Lemma good_symbols l (N : forall n, In n l -> no_nul n) : good l <-> NoDup l /\ Forall symbol_name l.
Proof.
  unfold good. rewrite !Forall_forall. split; intros [A B]; (split; [exact A|]); intros n I; specialize (B n I).
  - apply valid_name_iff. auto.
  - apply symbol_name_valid, B.
Qed.
Lemma command_line_names chdir file_exists dir args s : (forall a, In a args -> no_nul a) ->
  parse_arguments chdir file_exists dir args = ROk s <->
  exists l, written true l args /\
    s_temp s = final temp_of "" l /\ (s_sym s, s_version s) = final sym_of ("", 0%Z) l /\
    s_strict s = final strict_of false l /\ s_stat s = final stat_of false l /\
    s_equs s = pick equ_of l /\ NoDup (map fst (s_equs s)) /\ Forall symbol_name (map fst (s_equs s)) /\
    Forall2 (fun w x => fst w = fst x /\ label_value (snd w) = ROk (Some (snd x))) (pick label_of l) (s_labels s) /\
    NoDup (map fst (s_labels s)) /\ Forall symbol_name (map fst (s_labels s)) /\
    (s_input s <> "" /\ exists k, pick input_of l = repeat "" k ++ [s_input s]) /\
    directory chdir dir (pick root_of l) (s_dir s) /\ file_exists (s_dir s) (s_input s) = true.
Proof.
  intros N. rewrite command_line.
  assert (P : forall l, written true l args -> s_equs s = pick equ_of l ->
     Forall2 labelled (pick label_of l) (s_labels s) ->
     (good (map fst (s_equs s)) <-> NoDup (map fst (s_equs s)) /\ Forall symbol_name (map fst (s_equs s))) /\
     (good (map fst (s_labels s)) <-> NoDup (map fst (s_labels s)) /\ Forall symbol_name (map fst (s_labels s)))).
  { intros l W E L. split; apply good_symbols; intros n I; apply in_map_iff in I; destruct I as ([n' v] & <- & I); cbn [fst].
    - rewrite E in I. apply in_pick in I. destruct I as (i & I & F). apply N. apply (written_words _ _ _ W i n' I).
      destruct i; try discriminate F; injection F as -> _; cbn; auto.
    - assert (exists w, In (n', w) (pick label_of l)) as (w & J).
      { clear - L I. induction L as [|x y xs ys H L IH]; [destruct I|]. destruct I as [->|I].
        - destruct x as [a b]. destruct H as [H _]. cbn [fst] in H. exists b. left. congruence.
        - destruct (IH I) as (w & J). exists w. now right. }
      apply in_pick in J. destruct J as (i & J & F). apply N. apply (written_words _ _ _ W i n' J).
      destruct i; try discriminate F; injection F as -> _; cbn; auto. }
  split; intros (l & W & H); exists l; (split; [exact W|]).
  - destruct H as (A & B & C & D & E & G & M & I & R). destruct (P l W E M) as [P1 P2]. apply P1 in G. apply P2 in I. unfold labelled in M. tauto.
  - destruct H as (A & B & C & D & E & G1 & G2 & M & I1 & I2 & R). destruct (P l W E M) as [P1 P2].
    assert (G : good (map fst (s_equs s))) by (apply P1; auto). assert (I : good (map fst (s_labels s))) by (apply P2; auto).
    unfold labelled. tauto.
Qed.
Lemma exit_code_zero chdir file_exists run dir args :
  (exit_code chdir file_exists run dir args = ROk 0%Z <-> exists s, parse_arguments chdir file_exists dir args = ROk s /\ run s = ROk true) /\
  (parse_arguments chdir file_exists dir args = RErr -> forall run', exit_code chdir file_exists run' dir args = ROk 1%Z).
Proof.
  unfold exit_code. split.
  - destruct (parse_arguments chdir file_exists dir args) as [s| |].
    + split.
      * destruct (run s) as [[]| |] eqn:R; cbn [rbind]; try discriminate. eauto.
      * intros (s' & E & R). injection E as <-. rewrite R. reflexivity.
    + split; [discriminate|intros (s' & E & _); discriminate].
    + split; [discriminate|intros (s' & E & _); discriminate].
  - intros -> run'. reflexivity.
Qed.
Lemma scope_global n : scope_of (mkRef n 0 0) = Global -> global n.
Proof. unfold scope_of, global. cbn [r_name]. destruct n as [|c n]; [trivial|]. intros G ->. destruct n as [|d n]; [discriminate|]. revert G. destruct d as [[] [] [] [] [] [] [] []]; discriminate. Qed.
Lemma start_label_global strtod fuel s q section n v : start strtod fuel s = ROk (q, section) ->
  In (n, v) (s_labels s) -> symbol_name n -> scope_of (mkRef n 0 0) = Global ->
  (forall m w, In (m, w) (s_labels s) -> same_spelling n m -> (m, w) = (n, v)) -> NoDup (map fst (s_labels s)) ->
  (forall m w, In (m, w) (s_equs s) -> ~ same_spelling n m) ->
  forall n' file k, same_spelling n' n -> read_label (q_table q) (mkRef n' file k) = Some (v, true).
Proof. intros H I V G. apply (start_label strtod fuel s q section n v H I (symbol_name_valid n V) (scope_global n G)). Qed.
Lemma equs_same_start strtod fuel l :
  (forall n v, In (n, v) l -> proper_name n /\ symbol_name n /\ equ_value v) -> NoDup (map fst l) ->
  start_equs strtod fuel no_equs l = source_equs strtod fuel no_equs (map (fun x => fst x ++ " equ " ++ snd x)%string l).
Proof.
  intros P ND. apply equs_same; [exact empty_ok| |exact ND|].
  - intros n v I. destruct (P n v I) as (A & B & C). split; [exact A|]. split; [apply symbol_name_valid; exact B|exact C].
  - intros n v I. reflexivity.
Qed.
