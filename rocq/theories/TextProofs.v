(** Printing an expression and reading the text again. *)

Require Import ZArith List String Ascii Bool Lia.
Require Import ZifyBool.
From Coq Require Import Decimal DecimalString DecimalPos DecimalZ.
From Verif Require Import Ints Res ExprModel ExprProofs ParseModel ParseSpec ParseProofs LexModel LexSpec
  LexProofs TextSpec.
Import ListNotations.
Local Open Scope char_scope.
Local Open Scope Z_scope.

(** ** Decimal text of integers *)

Fixpoint horner (d : uint) (acc : Z) : Z :=
  match d with
  | Nil => acc
  | D0 l => horner l (acc * 10 + 0) | D1 l => horner l (acc * 10 + 1) | D2 l => horner l (acc * 10 + 2)
  | D3 l => horner l (acc * 10 + 3) | D4 l => horner l (acc * 10 + 4) | D5 l => horner l (acc * 10 + 5)
  | D6 l => horner l (acc * 10 + 6) | D7 l => horner l (acc * 10 + 7) | D8 l => horner l (acc * 10 + 8)
  | D9 l => horner l (acc * 10 + 9)
  end.

Lemma number_of_uint : forall d acc, number_from 10 acc (NilEmpty.string_of_uint d) = Some (horner d acc).
Proof. induction d; intros acc; cbn -[Z.mul Z.add]; auto. Qed.

Lemma horner_acc : forall d p, horner d (Zpos p) = Zpos (Pos.of_uint_acc d p).
Proof.
  induction d; intros p; cbn [horner Pos.of_uint_acc]; [reflexivity|..];
    rewrite <- IHd; f_equal; lia.
Qed.

Lemma horner_of : forall d, horner d 0 = Z.of_N (Pos.of_uint d).
Proof.
  induction d; cbn -[Pos.of_uint_acc]; try (rewrite horner_acc); auto.
Qed.

Lemma int_text_nonneg : forall z, 0 <= z ->
  number_value 10 (int_text z) = Some z /\ int_text z <> EmptyString.
Proof.
  intros z Hz. unfold int_text, number_value.
  assert (E : exists d, Z.to_int z = Decimal.Pos d).
  { destruct z; [eexists; reflexivity|eexists; reflexivity|lia]. }
  destruct E as [d E]. rewrite E. cbn [NilZero.string_of_int].
  assert (V : horner d 0 = z).
  { rewrite horner_of. pose proof (DecimalZ.of_to z) as T. rewrite E in T. exact T. }
  destruct d as [|d|d|d|d|d|d|d|d|d|d]; cbn [NilZero.string_of_uint];
    (split; [|discriminate]);
    try (rewrite <- V; apply (number_of_uint _ 0)).
  cbn in V. subst z. reflexivity.
Qed.

Lemma int_text_neg : forall z, z < 0 -> int_text z = String "-" (int_text (- z)).
Proof.
  intros z Hz. destruct z as [|p|p]; try lia. unfold int_text. cbn.
  destruct (Pos.to_uint p) eqn:E; reflexivity.
Qed.

Lemma number_head : forall s v, s <> EmptyString -> number_value 10 s = Some v -> starts_with_digit s.
Proof.
  intros [|c s] v Hne H; [contradiction|]. unfold number_value in H. cbn [number_from] in H.
  cbn. unfold decimal_digit. destruct (digit_in 10 c) as [d|]; [eauto|discriminate].
Qed.

(** ** Characters of names *)

Lemma name_char_facts : forall first c, name_char first c ->
  symbol_char c first = true /\ lower c = c /\ is_digit c && first = false.
Proof.
  intros first c [[i [Hi ->]]|[[-> [i [Hi ->]]]|[->|[->| ->]]]];
    try (destruct first; cbn; auto; fail).
  - assert (A : forallb (fun i => symbol_char (ascii_of_nat i) true && Ascii.eqb (lower (ascii_of_nat i)) (ascii_of_nat i)
        && symbol_char (ascii_of_nat i) false
        && negb (is_digit (ascii_of_nat i))) (seq 97 26) = true) by (vm_compute; reflexivity).
    rewrite forallb_forall in A. specialize (A i ltac:(apply in_seq; lia)).
    apply andb_prop in A. destruct A as [A A4]. apply andb_prop in A. destruct A as [A A3].
    apply andb_prop in A. destruct A as [A1 A2]. apply Ascii.eqb_eq in A2. apply negb_true_iff in A4.
    rewrite A4. destruct first; auto.
  - assert (A : forallb (fun i => symbol_char (ascii_of_nat i) false && Ascii.eqb (lower (ascii_of_nat i)) (ascii_of_nat i)) (seq 48 10) = true)
      by (vm_compute; reflexivity).
    rewrite forallb_forall in A. specialize (A i ltac:(apply in_seq; lia)).
    apply andb_prop in A. destruct A as [A1 A2]. apply Ascii.eqb_eq in A2. rewrite andb_false_r. auto.
Qed.

Definition sep_char (c : ascii) : bool := Ascii.eqb c " " || Ascii.eqb c "," || Ascii.eqb c ")".

Lemma separated_facts : forall rest, separated rest ->
  ends_number rest /\ (forall first, scan_ident rest first = (EmptyString, rest)).
Proof.
  intros [|c rest] H; [split; [exact I|reflexivity]|].
  cbn in H. split.
  - cbn. split.
    + intros X. apply letter_or_digit_alnum in X. destruct H as [->|[->| ->]]; discriminate X.
    + destruct H as [->|[->| ->]]; discriminate.
  - intros first. destruct H as [->|[->| ->]]; destruct first; reflexivity.
Qed.

Lemma scan_name : forall n first rest, name_chars first n -> separated rest ->
  scan_ident (n ++ rest) first = (n, rest) /\ lower_string n = n.
Proof.
  induction n as [|c n IH]; intros first rest Hn Hr; cbn [append].
  - split; [now apply separated_facts|reflexivity].
  - cbn in Hn. destruct Hn as [Hc Hn]. destruct (name_char_facts first c Hc) as [F1 [F2 _]].
    destruct (IH false rest Hn Hr) as [I1 I2].
    cbn [scan_ident lower_string]. rewrite F1, I1, F2, I2. auto.
Qed.

Lemma symbol_no_operator : forall c r first, symbol_char c first = true ->
  lex_operator (String c r) = None /\ Ascii.eqb c "'" = false /\ Ascii.eqb c dquote = false /\
  is_space c = false /\ Ascii.eqb c backslash = false /\ Ascii.eqb c "/" = false /\ Ascii.eqb c ";" = false.
Proof.
  intros c r first H. destruct first; destruct c as [[] [] [] [] [] [] [] []]; try discriminate H; cbn; auto 10.
Qed.

Lemma scan_plain : forall s rest, plain_string s ->
  scan_string (s ++ String dquote rest) = Some (s, rest).
Proof.
  induction s as [|c s IH]; intros rest H; cbn [append scan_string].
  - reflexivity.
  - cbn in H. destruct H as [H1 [H2 H3]].
    destruct (Ascii.eqb_spec c backslash) as [->|_]; [now contradiction H2|].
    destruct (Ascii.eqb_spec c dquote) as [->|_]; [now contradiction H1|].
    rewrite IH by exact H3. reflexivity.
Qed.

Ltac len := cbn [append String.length]; repeat (rewrite length_app_s; cbn [append String.length]).

Section Lex.
  Variable strtod : string -> option SpecFloat.spec_float.

  Lemma lex_line_mono : forall k q s ts, lex_line strtod k q s = ROk ts ->
    forall k', (k <= k')%nat -> lex_line strtod k' q s = ROk ts.
  Proof.
    induction k as [|k IH]; intros q s ts H k' Hk; [discriminate|].
    destruct k' as [|k']; [lia|]. cbn [lex_line] in *.
    destruct (skip_white (String.length s) s) as [s1 []]; [exact H|].
    destruct s1 as [|c r]; [exact H|].
    destruct (Ascii.eqb c backslash).
    - destruct (skip_white (String.length r) r) as [r1 []]; [exact H|].
      destruct r1 as [|c1 r1]; [exact H|].
      destruct (lex_line strtod k q (String c1 r1)) as [ts1| |] eqn:E; cbn in H; try discriminate.
      rewrite (IH _ _ _ E) by lia. exact H.
    - destruct (lex_token strtod q (String c r)) as [[[t r1] q1]| |]; cbn [rbind] in *; try discriminate.
      destruct (lex_line strtod k q1 r1) as [ts1| |] eqn:E; cbn in H; try discriminate.
      rewrite (IH _ _ _ E) by lia. exact H.
  Qed.

  Definition lx (k : nat) (s : string) (ts : list token) : Prop := lex_line strtod k false s = ROk ts.

  Lemma lx_mono : forall k k' s ts, lx k s ts -> (k <= k')%nat -> lx k' s ts.
  Proof. intros k k' s ts H Hk. eapply lex_line_mono; eauto. Qed.

  (** Starts a token: no white space, comment or continuation. *)
  Definition token_start (s : string) : Prop :=
    match s with
    | String c r => is_space c = false /\ Ascii.eqb c backslash = false /\ Ascii.eqb c ";" = false /\
        (c = "/" -> exists d r', r = String d r' /\ d = " ")
    | EmptyString => False
    end.

  Lemma skip_token : forall s, token_start s -> skip_white (String.length s) s = (s, false).
  Proof.
    intros [|c r] H; [contradiction|]. destruct H as [H1 [H2 [H3 H4]]].
    cbn [String.length skip_white]. rewrite H1.
    destruct (Ascii.eqb_spec c ";") as [->|H5]; [discriminate|].
    destruct (Ascii.eqb_spec c "/") as [->|H6].
    - destruct (H4 eq_refl) as [d [r' [-> ->]]]. reflexivity.
    - clear - H5 H6. unfold is_comment.
      destruct c as [[] [] [] [] [] [] [] []]; try reflexivity; (now contradiction H5) || (now contradiction H6).
  Qed.

  Lemma lx_token : forall k s t r ts, token_start s -> lex_token strtod false s = ROk (t, r, false) ->
    lx k r ts -> lx (S k) s (t :: ts).
  Proof.
    intros k s t r ts Hs Ht Hl. unfold lx. cbn [lex_line]. rewrite skip_token by exact Hs.
    destruct s as [|c s]; [contradiction|]. destruct Hs as [_ [Hb _]]. rewrite Hb, Ht. cbn [rbind].
    rewrite Hl. reflexivity.
  Qed.

  Lemma lx_space : forall k s ts, lx k s ts -> lx k (String " " s) ts.
  Proof.
    intros [|k] s ts H; [discriminate H|]. unfold lx in *. cbn [lex_line] in *.
    cbn [String.length skip_white]. change (is_space " ") with true. cbv iota. exact H.
  Qed.

  Lemma lx_op : forall k s t r ts, lex_operator s = Some (t, r) -> token_start s -> lx k r ts ->
    lx (S k) s (t :: ts).
  Proof. intros k s t r ts Ho Hs Hl. eapply lx_token; [exact Hs| |exact Hl]. unfold lex_token. now rewrite Ho. Qed.

  Lemma lx_number : forall k z rest ts, 0 <= z <= int64_max -> separated rest -> lx k rest ts ->
    lx (S k) (int_text z ++ rest) (TInt z :: ts).
  Proof.
    intros k z rest ts Hz Hr Hl. destruct (int_text_nonneg z ltac:(lia)) as [Hv Hne].
    pose proof (number_head _ _ Hne Hv) as Hst.
    eapply lx_token; [| |exact Hl].
    - destruct (starts_digit _ Hst) as [c [r [-> Hc]]]. cbn.
      char_fact (fun c => implb (is_digit c) (negb (is_space c) && negb (Ascii.eqb c backslash) && negb (Ascii.eqb c ";")
         && negb (Ascii.eqb c "/"))) c Hc.
      apply andb_prop in A. destruct A as [A A4]. apply andb_prop in A. destruct A as [A A3].
      apply andb_prop in A. destruct A as [A1 A2]. apply negb_true_iff in A1, A2, A3, A4.
      split; [exact A1|]. split; [exact A2|]. split; [exact A3|]. intros ->. discriminate A4.
    - apply (lex_literal strtod _ 10 (int_text z)); [apply lit_dec|exact Hst|exact Hv|lia|].
      now apply separated_facts.
  Qed.

  Lemma lx_name : forall k n rest ts, n <> EmptyString -> name_chars true n -> n <> "equ"%string ->
    separated rest -> lx k rest ts -> lx (S k) (n ++ rest) (TIdent n :: ts).
  Proof.
    intros k n rest ts Hne Hn He Hr Hl.
    destruct (scan_name n true rest Hn Hr) as [S1 S2].
    destruct n as [|c n]; [contradiction|]. cbn in Hn. destruct Hn as [Hc Hn].
    destruct (name_char_facts true c Hc) as [F1 [F2 F3]]. rewrite andb_true_r in F3.
    destruct (symbol_no_operator c (n ++ rest) true F1) as [G1 [G2 [G3 [G4 [G5 [G6 G7]]]]]].
    eapply lx_token; [| |exact Hl].
    - cbn [append token_start]. split; [exact G4|]. split; [exact G5|]. split; [exact G7|].
      intros ->. discriminate G6.
    - unfold lex_token. cbn [append]. rewrite G1, G2, G3, F3.
      change (String c (n ++ rest)) with (String c n ++ rest)%string. rewrite S1, S2.
      destruct (String.eqb_spec (String c n) "equ"); [contradiction|reflexivity].
  Qed.

  Lemma lx_string : forall k s rest ts, plain_string s -> lx k rest ts ->
    lx (S k) (escape_string s ++ rest) (TStr s :: ts).
  Proof.
    intros k s rest ts Hs Hl. unfold escape_string, quote.
    replace ((String (ascii_of_nat 34) "" ++ s ++ String (ascii_of_nat 34) "") ++ rest)%string
      with (String dquote (s ++ String dquote rest)) by (cbn; now rewrite app_assoc_s).
    eapply lx_token; [| |exact Hl].
    - repeat split; try reflexivity. intros H; discriminate H.
    - unfold lex_token. cbn [lex_operator dquote]. change (Ascii.eqb dquote "'") with false.
      change (Ascii.eqb dquote dquote) with true. cbv iota. fold dquote. rewrite scan_plain by exact Hs. reflexivity.
  Qed.

  (** ** Trees *)

  Fixpoint tok (e : expr) : list token :=
    match e with
    | EInt z => if z <? 0 then [TMinus; TInt (- z)] else [TInt z]
    | EIdent n _ _ => [TIdent n]
    | EStr s => [TStr s]
    | EPos => [TIdent "."]
    | EUn op a => TLParen :: un_token op :: tok a ++ [TRParen]
    | EToString a => TLParen :: TDegree :: tok a ++ [TRParen]
    | EBin op a b => TLParen :: tok a ++ bin_token op :: tok b ++ [TRParen]
    | ECond c a b => TLParen :: tok c ++ TQuestion :: tok a ++ TColon :: tok b ++ [TRParen]
    | _ => []
    end.

  Fixpoint norm (e : expr) : expr :=
    match e with
    | EInt z => if z <? 0 then EUn UNeg (EInt (- z)) else EInt z
    | EUn op a => EUn op (norm a)
    | EToString a => EToString (norm a)
    | EBin op a b => EBin op (norm a) (norm b)
    | ECond c a b => ECond (norm c) (norm a) (norm b)
    | _ => e
    end.

  Section Host.
    Variable h : host.
    Variable isfun : string -> bool.
    Variables file section : Z.
    Notation gram := (ParseSpec.gram isfun file section).

    Lemma tok_gram : forall e, printable file section e ->
      gram 1 (tok e) (norm e) /\ (~ negative_constant e -> gram 0 (tok e) (norm e)).
    Proof.
      induction e as [|z|fl|id fi se|st| |op a IHa|op a b IHa IHb|c a b IHc IHa IHb|a IHa|f args IHargs]
        using expr_ind'; intros Hp; cbn [printable] in Hp; try contradiction.
      - cbn [tok norm negative_constant]. destruct (Z.ltb_spec z 0).
        + split; [apply (g_un _ _ _ UNeg); constructor|lia].
        + split; [|intros _; constructor]. apply g_up; [lia|constructor].
      - destruct Hp as [[H1 [H2 [H3 H4]]] [-> ->]].
        assert (G : gram 0 [TIdent id] (EIdent id file section)) by now constructor.
        split; [apply g_up; [lia|exact G]|intros _; exact G].
      - split; [|intros _; constructor]. apply g_up; [lia|constructor].
      - split; [|intros _; constructor]. apply g_up; [lia|constructor].
      - destruct Hp as [Hp Hn]. destruct (IHa Hp) as [_ G]. specialize (G Hn).
        assert (G' : gram 0 (tok (EUn op a)) (norm (EUn op a))).
        { cbn [tok norm]. apply (g_paren _ _ _ (un_token op :: tok a)). apply (gram_up _ _ _ 1); [lia|]. apply g_un. exact G. }
        split; [apply g_up; [lia|exact G']|intros _; exact G'].
      - destruct Hp as [Ha Hb]. destruct (IHa Ha) as [Ga _]. destruct (IHb Hb) as [Gb _].
        pose proof (c_prec_le op).
        assert (G' : gram 0 (tok (EBin op a b)) (norm (EBin op a b))).
        { cbn [tok norm]. change (tok a ++ bin_token op :: tok b ++ [TRParen])%list with (tok a ++ (bin_token op :: tok b) ++ [TRParen])%list.
          rewrite List.app_assoc. apply g_paren. apply (gram_up _ _ _ (c_prec op)); [lia|].
          apply g_bin; apply (gram_up _ _ _ 1); try lia; assumption. }
        split; [apply g_up; [lia|exact G']|intros _; exact G'].
      - destruct Hp as [Hc [Ha Hb]]. destruct (IHc Hc) as [Gc _]. destruct (IHa Ha) as [Ga _]. destruct (IHb Hb) as [Gb _].
        assert (G' : gram 0 (tok (ECond c a b)) (norm (ECond c a b))).
        { cbn [tok norm].
          replace (tok c ++ TQuestion :: tok a ++ TColon :: tok b ++ [TRParen])%list
            with ((tok c ++ TQuestion :: tok a ++ TColon :: tok b) ++ [TRParen])%list
            by (rewrite <- !List.app_assoc; cbn; rewrite <- !List.app_assoc; reflexivity).
          apply g_paren. apply g_cond; apply (gram_up _ _ _ 1); try lia; assumption. }
        split; [apply g_up; [lia|exact G']|intros _; exact G'].
      - destruct Hp as [Hp Hn]. destruct (IHa Hp) as [_ G].
        specialize (G ltac:(destruct a; cbn in *; try tauto; lia)).
        assert (G' : gram 0 (tok (EToString a)) (norm (EToString a))).
        { cbn [tok norm]. apply (g_paren _ _ _ (TDegree :: tok a)). apply (gram_up _ _ _ 1); [lia|]. apply g_tostring. exact G. }
        split; [apply g_up; [lia|exact G']|intros _; exact G'].
    Qed.

    Lemma norm_id : forall e, no_negative e -> norm e = e.
    Proof.
      induction e as [|z|fl|id fi se|str| |op a IHa|op a b IHa IHb|c a b IHc IHa IHb|a IHa|f args IHargs]
        using expr_ind'; intros Hn; cbn [norm no_negative] in *; try reflexivity.
      - destruct (Z.ltb_spec z 0); [lia|reflexivity].
      - now rewrite IHa.
      - now rewrite IHa, IHb.
      - now rewrite IHc, IHa, IHb.
      - now rewrite IHa.
    Qed.

    Lemma norm_eval : forall reg st e, printable file section e -> eval reg st (norm e) = eval reg st e.
    Proof.
      intros reg st.
      induction e as [|z|fl|id fi se|str| |op a IHa|op a b IHa IHb|c a b IHc IHa IHb|a IHa|f args IHargs]
        using expr_ind'; intros Hp; cbn [printable] in Hp; try contradiction; cbn [norm]; try reflexivity.
      - destruct (Z.ltb_spec z 0); [|reflexivity].
        cbn [eval]. unfold obind, oret, apply_un, v_sub, int_or_ub, ub_unless.
        replace (0 - - z) with z by lia.
        replace (in_int64 z) with true; [reflexivity|]. unfold in_int64. lia.
      - cbn [eval]. rewrite IHa by apply Hp. reflexivity.
      - cbn [eval]. rewrite IHa, IHb by apply Hp. reflexivity.
      - cbn [eval]. rewrite IHc, IHa, IHb by apply Hp. reflexivity.
      - cbn [eval]. rewrite norm_id by apply Hp. reflexivity.
    Qed.

    Lemma lx_bin : forall op k s ts, lx k s ts -> lx (S k) (bin_text op ++ s) (bin_token op :: ts).
    Proof.
      intros op k s ts H.
      destruct op; cbn [bin_text append]; apply lx_space; (eapply lx_op;
        [reflexivity| |apply lx_space; exact H]);
        (repeat split; try reflexivity; intros X; try discriminate X; eauto).
    Qed.

    Lemma lx_tree : forall e t ms, printable file section e -> to_text h e = OVal t ms ->
      forall k rest ts, separated rest -> lx k rest ts ->
      lx (k + String.length t) (t ++ rest) (tok e ++ ts).
    Proof.
      induction e as [|z|fl|id fi se|st| |op a IHa|op a b IHa IHb|c a b IHc IHa IHb|a IHa|f args IHargs]
        using expr_ind'; intros t ms Hp Ht k rest ts Hr Hl; cbn [printable] in Hp; try contradiction;
        cbn [to_text] in Ht; unfold oret in Ht.
      - injection Ht as <- <-. cbn [tok]. unfold int64_min in Hp. destruct (Z.ltb_spec z 0).
        + rewrite int_text_neg by lia. cbn [append String.length].
          destruct (int_text_nonneg (- z) ltac:(lia)) as [_ Hne].
          apply lx_mono with (k := S (S k)).
          2:{ destruct (int_text (- z)); [contradiction|]. cbn. lia. }
          apply (lx_op (S k) _ TMinus (int_text (- z) ++ rest)); [reflexivity|repeat split; try reflexivity; intros X; discriminate X|].
          apply lx_number; [unfold int64_max in *; lia|assumption|assumption].
        + destruct (int_text_nonneg z ltac:(lia)) as [_ Hne].
          apply lx_mono with (k := S k).
          2:{ destruct (int_text z); [contradiction|]. cbn. lia. }
          apply lx_number; [lia|assumption|assumption].
      - injection Ht as <- <-. destruct Hp as [[H1 [H2 [H3 H4]]] _]. apply lx_mono with (k := S k).
        2:{ destruct id; [contradiction|]. cbn. lia. }
        apply lx_name; assumption.
      - injection Ht as <- <-. apply lx_mono with (k := S k); [|cbn; lia]. apply lx_string; assumption.
      - injection Ht as <- <-. apply lx_mono with (k := S k); [|cbn; lia].
        apply (lx_name k "."); try assumption; try discriminate. cbn. split; [|exact I].
        right. right. right. left. reflexivity.
      - destruct Hp as [Hp _]. destruct (to_text h a) as [ta msa| |] eqn:Ea; cbn in Ht; try discriminate.
        injection Ht as <- _. cbn [tok Datatypes.app].
        rewrite <- List.app_assoc. cbn [Datatypes.app].
        apply lx_mono with (k := S (S (S k + String.length ta))).
        2:{ destruct op; cbn [un_text append String.length]; rewrite length_app_s; cbn; lia. }
        assert (L : lx (S k + String.length ta) (ta ++ String ")" rest) (tok a ++ TRParen :: ts)).
        { eapply IHa; [exact Hp|reflexivity|cbn; auto|].
          eapply lx_op; [reflexivity|repeat split; try reflexivity; intros X; discriminate X|exact Hl]. }
        cbn [append]. replace ((un_text op ++ ta ++ ")") ++ rest)%string with (un_text op ++ ta ++ String ")" rest)%string
          by (rewrite !app_assoc_s; reflexivity).
        apply (lx_op _ _ TLParen (un_text op ++ ta ++ String ")" rest)); [reflexivity|repeat split; try reflexivity; intros X; discriminate X|].
        assert (Hhd : exists c0 r0, (ta ++ String ")" rest)%string = String c0 r0 /\ Ascii.eqb c0 "=" = false).
        { clear - Ea Hp. destruct a; cbn in Ea; unfold oret in Ea; cbn [printable] in Hp; try contradiction.
          - injection Ea as <- <-. unfold int64_min in Hp. destruct (Z.ltb_spec z 0).
            + rewrite int_text_neg by lia. cbn. eauto.
            + destruct (int_text_nonneg z ltac:(lia)) as [Hv Hne].
              destruct (starts_digit _ (number_head _ _ Hne Hv)) as [c0 [r0 [-> Hc]]]. cbn.
              eexists _, _. split; [reflexivity|]. destruct (Ascii.eqb_spec c0 "="); [subst; discriminate|reflexivity].
          - injection Ea as <- <-. destruct Hp as [[H1 [H2 _]] _]. destruct name as [|c0 n]; [contradiction|].
            cbn in H2. destruct H2 as [H2 _]. cbn. eexists _, _. split; [reflexivity|].
            apply name_char_facts in H2. destruct H2 as [H2 _].
            destruct (Ascii.eqb_spec c0 "="); [subst; discriminate|reflexivity].
          - injection Ea as <- <-. cbn. eauto.
          - injection Ea as <- <-. cbn. eauto.
          - destruct (to_text h a); cbn in Ea; try discriminate. injection Ea as <- _. cbn. eauto.
          - destruct (to_text h a1); cbn in Ea; try discriminate.
            destruct (to_text h a2); cbn in Ea; try discriminate. injection Ea as <- _. cbn. eauto.
          - destruct (to_text h a1); cbn in Ea; try discriminate.
            destruct (to_text h a2); cbn in Ea; try discriminate.
            destruct (to_text h a3); cbn in Ea; try discriminate. injection Ea as <- _. cbn. eauto.
          - destruct (to_text h a); cbn in Ea; try discriminate. injection Ea as <- _. cbn. eauto. }
        destruct Hhd as [c0 [r0 [Ehd Hc0]]].
        eapply lx_op; [| |exact L].
        + destruct op; cbn [un_text append un_token]; try reflexivity.
          rewrite Ehd. cbn. destruct (Ascii.eqb_spec c0 "="); [discriminate|].
          clear - n. destruct c0 as [[] [] [] [] [] [] [] []]; try reflexivity. now contradiction n.
        + destruct op; repeat split; try reflexivity; intros X; discriminate X.
      - destruct Hp as [Ha Hb].
        destruct (to_text h a) as [ta msa| |] eqn:Ea; cbn in Ht; try discriminate.
        destruct (to_text h b) as [tb msb| |] eqn:Eb; cbn in Ht; try discriminate.
        injection Ht as <- _. cbn [tok Datatypes.app].
        apply lx_mono with (k := S (S (S k + String.length tb) + String.length ta)).
        2:{ len. destruct op; cbn; lia. }
        replace (tok a ++ bin_token op :: tok b ++ [TRParen])%list with (tok a ++ (bin_token op :: tok b ++ [TRParen]))%list by reflexivity.
        rewrite <- List.app_assoc. cbn [Datatypes.app]. rewrite <- List.app_assoc. cbn [Datatypes.app].
        replace (String "(" (ta ++ bin_text op ++ tb ++ ")") ++ rest)%string
          with (String "(" (ta ++ (bin_text op ++ (tb ++ String ")" rest))))%string
          by (cbn [append]; rewrite !app_assoc_s; reflexivity).
        eapply lx_op; [reflexivity|repeat split; try reflexivity; intros X; discriminate X|].
        eapply IHa; [exact Ha|reflexivity|destruct op; cbn; auto|].
        apply lx_bin. eapply IHb; [exact Hb|reflexivity|cbn; auto|].
        eapply lx_op; [reflexivity|repeat split; try reflexivity; intros X; discriminate X|exact Hl].
      - destruct Hp as [Hc [Ha Hb]].
        destruct (to_text h c) as [tc msc| |] eqn:Ec; cbn in Ht; try discriminate.
        destruct (to_text h a) as [ta msa| |] eqn:Ea; cbn in Ht; try discriminate.
        destruct (to_text h b) as [tb msb| |] eqn:Eb; cbn in Ht; try discriminate.
        injection Ht as <- _. cbn [tok Datatypes.app].
        apply lx_mono with (k := S (S (S (S k + String.length tb) + String.length ta) + String.length tc)).
        2:{ len. lia. }
        rewrite <- List.app_assoc. cbn [Datatypes.app]. rewrite <- List.app_assoc. cbn [Datatypes.app]. rewrite <- List.app_assoc. cbn [Datatypes.app].
        match goal with |- lx _ ?X _ => replace X
          with (String "(" (tc ++ String " " (String "?" (String " " (ta ++ String " " (String ":" (String " " (tb ++ String ")" rest))))))))%string end.
        2:{ cbn [append]. rewrite !app_assoc_s. cbn. rewrite !app_assoc_s. cbn. rewrite !app_assoc_s. reflexivity. }
        eapply lx_op; [reflexivity|repeat split; try reflexivity; intros X; discriminate X|].
        eapply IHc; [exact Hc|reflexivity|cbn; auto|].
        apply lx_space. eapply lx_op; [reflexivity|repeat split; try reflexivity; intros X; discriminate X|].
        apply lx_space. eapply IHa; [exact Ha|reflexivity|cbn; auto|].
        apply lx_space. eapply lx_op; [reflexivity|repeat split; try reflexivity; intros X; discriminate X|].
        apply lx_space. eapply IHb; [exact Hb|reflexivity|cbn; auto|].
        eapply lx_op; [reflexivity|repeat split; try reflexivity; intros X; discriminate X|exact Hl].
      - destruct Hp as [Hp _]. destruct (to_text h a) as [ta msa| |] eqn:Ea; cbn in Ht; try discriminate.
        injection Ht as <- _. cbn [tok Datatypes.app]. rewrite <- List.app_assoc. cbn [Datatypes.app].
        apply lx_mono with (k := S (S (S k + String.length ta))).
        2:{ cbn [degree_utf8 append String.length]. rewrite length_app_s; cbn; lia. }
        match goal with |- lx _ ?X _ => replace X
          with (String "(" (String "194" (String "176" (ta ++ String ")" rest))))%string
          by (cbn; rewrite !app_assoc_s; reflexivity) end.
        eapply lx_op; [reflexivity|repeat split; try reflexivity; intros X; discriminate X|].
        eapply lx_op; [reflexivity|repeat split; try reflexivity; intros X; discriminate X|].
        eapply IHa; [exact Hp|reflexivity|cbn; auto|].
        eapply lx_op; [reflexivity|repeat split; try reflexivity; intros X; discriminate X|exact Hl].
    Qed.

    Lemma print_parse : forall e t ms rest tr, printable file section e -> to_text h e = OVal t ms ->
      separated rest -> tokenize strtod rest = ROk tr -> cannot_extend tr ->
      exists ts e', tokenize strtod (t ++ rest) = ROk (ts ++ tr)%list /\
        parse_expression isfun file section (ts ++ tr) = Some (e', tr) /\
        forall reg st, eval reg st e' = eval reg st e.
    Proof.
      intros e t ms rest tr Hp Ht Hr Htr Hx. exists (tok e), (norm e).
      split; [|split].
      - unfold tokenize. rewrite length_app_s.
        replace (String.length t + String.length rest + 1)%nat
          with ((String.length rest + 1) + String.length t)%nat by lia.
        eapply lx_tree; eauto.
      - apply grammar_parsed; [|exact Hx]. apply (gram_up _ _ _ 1); [lia|]. now apply tok_gram.
      - intros reg st. now apply norm_eval.
    Qed.
  End Host.
End Lex.
