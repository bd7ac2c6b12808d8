(** Proofs about whole files of tokens. *)

Require Import ZArith List String Ascii Bool Lia.
From Verif Require Import Res ParseModel LexModel Ints LexProofs TextProofs TokModel TokSpec.
Import ListNotations.
Local Open Scope string_scope.

(** ** String literals *)
Lemma eqb_refl_a c : Ascii.eqb c c = true. Proof. apply Ascii.eqb_refl. Qed.
Lemma eqb_ne c d : c <> d -> Ascii.eqb c d = false. Proof. intros H. now apply Ascii.eqb_neq. Qed.

Lemma scan_spells raw t rest : spells raw t -> scan_string (raw ++ String dquote rest) = Some (t, rest).
Proof.
  intros H. induction H as [|c raw t Hq Hb H IH|raw t H IH|raw t H IH|c raw t Hq Hb H IH]; cbn [append scan_string].
  - reflexivity.
  - rewrite (eqb_ne c backslash Hb), (eqb_ne c dquote Hq), IH. reflexivity.
  - rewrite IH. reflexivity.
  - rewrite IH. reflexivity.
  - cbn [append scan_string] in IH. change (Ascii.eqb bslash backslash) with true. cbv iota.
    rewrite (eqb_ne c backslash Hb), (eqb_ne c dquote Hq) in *. cbn [orb]. change (Ascii.eqb bslash dquote) with false. cbv iota.
    rewrite IH. reflexivity.
Qed.
Lemma scan_sound s : forall t rest, scan_string s = Some (t, rest) -> exists raw, s = raw ++ String dquote rest /\ spells raw t.
Proof.
  induction s as [s IH] using (induction_ltof1 _ String.length). unfold ltof in IH.
  intros t rest. destruct s as [|c r]; [discriminate|]. cbn [scan_string].
  assert (plain : Ascii.eqb c backslash = false \/ (exists d r', r = String d r' /\ d <> dquote /\ d <> backslash) ->
    (if Ascii.eqb c dquote then Some ("", r) else option_map (fun '(t, r') => (String c t, r')) (scan_string r)) = Some (t, rest) ->
    exists raw, String c r = raw ++ String dquote rest /\ spells raw t).
  { intros Hc. destruct (Ascii.eqb_spec c dquote) as [->|Hq].
    - intros E. injection E as <- <-. exists "". split; [reflexivity|constructor].
    - destruct (scan_string r) as [[t' r']|] eqn:E; [|discriminate]. cbn [option_map]. intros E'. injection E' as <- <-.
      destruct (IH r ltac:(cbn; lia) t' r' E) as [raw [Er Hs]]. exists (String c raw). split; [cbn; now rewrite Er|].
      destruct (Ascii.eqb_spec c backslash) as [->|Hb]; [|constructor; assumption].
      destruct Hc as [Hc|[d [r2 [-> [Hd1 Hd2]]]]]; [discriminate|].
      destruct raw as [|d' raw]; cbn in Er; injection Er as Ed Er; [congruence|]. subst d'. apply sp_lone; assumption. }
  destruct (Ascii.eqb_spec c backslash) as [->|Hb]; [|apply plain; auto].
  destruct r as [|d r]; [cbn; discriminate|].
  destruct (Ascii.eqb_spec d dquote) as [->|Hd1]; [|destruct (Ascii.eqb_spec d backslash) as [->|Hd2]]; cbn [orb].
  - destruct (scan_string r) as [[t' r']|] eqn:E; [|discriminate]. intros E'. injection E' as <- <-.
    destruct (IH r ltac:(cbn; lia) t' r' E) as [raw [-> Hs]]. exists (String backslash (String dquote raw)). split; [reflexivity|constructor; assumption].
  - destruct (scan_string r) as [[t' r']|] eqn:E; [|discriminate]. intros E'. injection E' as <- <-.
    destruct (IH r ltac:(cbn; lia) t' r' E) as [raw [-> Hs]]. exists (String backslash (String backslash raw)). split; [reflexivity|constructor; assumption].
  - apply plain. right. eauto.
Qed.
Lemma spells_escaped t : spells (escaped t) t.
Proof.
  induction t as [|c t IH]; cbn [escaped]; [constructor|].
  destruct (Ascii.eqb_spec c quote) as [->|H1]; [|destruct (Ascii.eqb_spec c bslash) as [->|H2] ]; cbn [orb]; constructor; assumption.
Qed.

Section F.
  Variable strtod : string -> option SpecFloat.spec_float.

  Lemma string_token s : lex_token strtod false (String dquote s) =
    match scan_string s with Some (t, r') => ROk (TStr t, r', false) | None => ROk (TInvalid, "", false) end.
  Proof. reflexivity. Qed.

  (** ** Tokens make progress *)
  Lemma substring_le : forall s n m, (String.length (substring n m s) <= m)%nat.
  Proof. induction s as [|c s IH]; intros [|n] [|m]; cbn; try lia; try apply IH. specialize (IH 0%nat m). lia. Qed.
  Lemma decode_progress s v r : s <> "" -> decode_utf8 s = ROk (v, r) -> (String.length r < String.length s)%nat.
  Proof.
    unfold decode_utf8. destruct s as [|c s]; [congruence|]. intros _ H.
    destruct (char_at (String c s) 0) as [c0| |]; cbn [rbind] in H; try discriminate.
    assert (G : forall n, (0 < n)%nat -> (String.length (substring n (String.length (String c s) - n) (String c s)) < String.length (String c s))%nat).
    { intros n Hn. eapply Nat.le_lt_trans; [apply substring_le|]. cbn [String.length]. lia. }
    cbv zeta in H. set (f := fun n => substring n (String.length (String c s) - n) (String c s)) in *.
    change (substring 1 _ _) with (f 1%nat) in H. change (substring 2 _ _) with (f 2%nat) in H. change (substring 3 _ _) with (f 3%nat) in H.
    assert (G' : forall n, (0 < n)%nat -> (String.length (f n) < String.length (String c s))%nat) by exact G. clear G. clearbody f.
    repeat match type of H with
    | (if ?b then _ else _) = _ => destruct b
    | (do _ <- ?x; _) = _ => destruct x; cbn [rbind] in H; try discriminate
    end; injection H as <- <-; apply G'; lia.
  Qed.
  Lemma decode_no_err s : decode_utf8 s <> RErr.
  Proof.
    unfold decode_utf8. cbv zeta. intros H.
    assert (G : forall x n, char_at x n <> RErr) by (intros x n; unfold char_at; destruct (String.get n x); [discriminate|destruct (Nat.eqb _ _); discriminate]).
    repeat match type of H with
    | (if ?b then _ else _) = _ => destruct b
    | (do _ <- ?x; _) = _ => destruct x eqn:?; cbn [rbind] in H; try discriminate; try (eapply G; eassumption)
    end; try discriminate.
  Qed.

  Lemma char_at_no_err x n : char_at x n <> RErr.
  Proof. unfold char_at. destruct (String.get n x); [discriminate|destruct (Nat.eqb _ _); discriminate]. Qed.
  Lemma convert_no_err : forall s base acc, convert_digits base acc s <> RErr.
  Proof.
    induction s as [|c s IH]; intros base acc; cbn [convert_digits]; [discriminate|]. cbv zeta.
    destruct (_ <=? _)%Z; [discriminate|]. destruct (_ && _); [apply IH|discriminate].
  Qed.
  Lemma string_to_int_no_err line a b : string_to_int line a b <> RErr.
  Proof.
    unfold string_to_int. intros H. revert H.
    destruct (char_at line a) as [c0| |] eqn:E0; cbn [rbind]; [|now destruct (char_at_no_err line a)|discriminate].
    destruct (if Ascii.eqb c0 "0" then char_at line (a + 1) else ROk "000"%char) as [c1| |] eqn:E1; cbn [rbind];
      [|destruct (Ascii.eqb c0 "0"); [now destruct (char_at_no_err line (a+1)%nat)|discriminate]|discriminate].
    destruct (char_at line (b - 1)) as [c2| |] eqn:E2; cbn [rbind]; [|now destruct (char_at_no_err line (b-1)%nat)|discriminate].
    cbv zeta. match goal with |- (let '(_, _) := ?x in _) = _ -> _ => destruct x as [base start] end.
    match goal with |- (let '(_, _) := ?x in _) = _ -> _ => destruct x as [base' stop] end. apply convert_no_err.
  Qed.
  Lemma scan_number_length s : forall st t r st', scan_number s st = (t, r, st') -> String.length s = (String.length t + String.length r)%nat.
  Proof.
    induction s as [s IH] using (induction_ltof1 _ String.length). unfold ltof in IH.
    intros st t r st'. destruct s as [|c s]; cbn [scan_number]; [intros E; now injection E as <- <- <-|]. cbv zeta.
    assert (K : forall st0, (let '(t, r', st'') := scan_number s st0 in (String c t, r', st'')) = (t, r, st') -> String.length (String c s) = (String.length t + String.length r)%nat).
    { intros st0. destruct (scan_number s st0) as [[t0 r0] st1] eqn:E. intros E'. injection E' as <- <- <-.
      apply IH in E; [cbn; lia|cbn; lia]. }
    destruct (is_alnum c || Ascii.eqb c "."); [|intros E; injection E as <- <- <-; reflexivity].
    destruct (Ascii.eqb c "."); [apply K|].
    destruct (Ascii.eqb (lower c) "h" && negb (n_sign st)); [apply K|].
    destruct (Ascii.eqb (lower c) "e" && negb (n_hex st)); [|apply K].
    destruct (n_exp st); [apply K|]. destruct s as [|g s]; [apply K|].
    destruct (Ascii.eqb g "+" || Ascii.eqb g "-"); [|apply K].
    destruct (scan_number s _) as [[t0 r0] st1] eqn:E. intros E'. injection E' as <- <- <-. apply IH in E; [cbn; lia|cbn; lia].
  Qed.
  Lemma scan_number_digit c s st t r st' : is_digit c = true -> scan_number (String c s) st = (t, r, st') -> t <> "".
  Proof.
    intros Hd. cbn [scan_number]. unfold is_alnum. rewrite Hd. cbn [orb]. cbv zeta.
    repeat match goal with
    | |- (if ?b then _ else _) = _ -> _ => destruct b
    | |- context [scan_number ?a ?b] => destruct (scan_number a b) as [[? ?] ?]
    | |- match ?x with EmptyString => _ | String _ _ => _ end = _ -> _ => destruct x
    end; intros E; injection E as <- <- <-; discriminate.
  Qed.
  Lemma scan_ident_length : forall s f t r, scan_ident s f = (t, r) -> String.length s = (String.length t + String.length r)%nat.
  Proof.
    induction s as [|c s IH]; intros f t r; cbn [scan_ident]; [intros E; now injection E as <- <-|].
    destruct (symbol_char c f); [|intros E; now injection E as <- <-].
    destruct (scan_ident s false) as [t0 r0] eqn:E0. intros E. injection E as <- <-. apply IH in E0. cbn. lia.
  Qed.
  Lemma scan_equ_length : forall s t r, scan_equ s = (t, r) -> String.length s = (String.length t + String.length r)%nat.
  Proof.
    induction s as [|c s IH]; intros t r; cbn [scan_equ]; [intros E; now injection E as <- <-|].
    destruct (is_comment (String c s)); [intros E; now injection E as <- <-|].
    destruct (scan_equ s) as [t0 r0] eqn:E0. intros E. injection E as <- <-. specialize (IH _ _ eq_refl). cbn. lia.
  Qed.
  Lemma scan_string_length s t r : scan_string s = Some (t, r) -> (String.length r < String.length s)%nat.
  Proof.
    intros H. apply scan_sound in H. destruct H as [raw [-> _]]. induction raw as [|c raw IH]; cbn in *; lia.
  Qed.
  Lemma operator_length s t r : lex_operator s = Some (t, r) -> (String.length r < String.length s)%nat.
  Proof.
    unfold lex_operator. intros H.
    repeat match type of H with
    | match ?x with _ => _ end = _ => destruct x; try discriminate
    end; injection H as <- <-; cbn; lia.
  Qed.

  Lemma lex_number_progress c s t r : is_digit c = true -> lex_number strtod (String c s) = ROk (t, r) -> (String.length r < String.length (String c s))%nat.
  Proof.
    intros Hd H. unfold lex_number in H.
    match type of H with context [scan_number ?a ?b] => destruct (scan_number a b) as [[t0 r0] st] eqn:E end.
    pose proof (scan_number_digit _ _ _ _ _ _ Hd E) as N. apply scan_number_length in E.
    assert (r = r0).
    { destruct (_ || _); [destruct (negb _); [congruence|destruct (strtod t0); congruence]|].
      destruct (string_to_int _ _ _) as [[z|]| |]; cbn [rbind] in H; congruence. }
    subst r0. destruct t0; [congruence|]. cbn in *. lia.
  Qed.
  Lemma lex_token_progress equ s t r e : s <> "" -> is_comment s = false -> lex_token strtod equ s = ROk (t, r, e) -> (String.length r < String.length s)%nat.
  Proof.
    intros Hs Hc. unfold lex_token. destruct equ.
    - destruct (scan_equ s) as [t0 r0] eqn:E. intros H. injection H as <- <- <-.
      destruct s as [|c s]; [congruence|]. cbn [scan_equ] in E. rewrite Hc in E.
      destruct (scan_equ s) as [t1 r1] eqn:E1. injection E as <- <-. apply scan_equ_length in E1. cbn. lia.
    - destruct (lex_operator s) as [[t0 r0]|] eqn:Eo; [intros H; injection H as <- <- <-; eapply operator_length; eassumption|].
      destruct s as [|c s]; [congruence|]. cbv zeta.
      assert (inv : (do d <- decode_utf8 (String c s); let '(_, r') := d in if (String.length (String c s) <? decode_length (String c s))%nat then RUb else ROk (TInvalid, r', false)) = ROk (t, r, e) -> (String.length r < String.length (String c s))%nat).
      { destruct (decode_utf8 (String c s)) as [[v r0]| |] eqn:E; cbn [rbind]; try discriminate. destruct (_ <? _)%nat; [discriminate|].
        intros H. injection H as <- <- <-. eapply decode_progress; [discriminate|eassumption]. }
      destruct (Ascii.eqb c "'").
      { destruct s as [|d s]; [discriminate|].
        destruct (decode_utf8 (String d s)) as [[v r0]| |] eqn:E; cbn [rbind]; try discriminate.
        destruct (_ || _); [|discriminate]. apply decode_progress in E; [|discriminate]. intros H.
        repeat match type of H with match ?x with _ => _ end = _ => destruct x; try (apply inv; exact H) end.
        injection H as <- <- <-. cbn [String.length] in *. lia. }
      destruct (Ascii.eqb c dquote).
      { destruct (scan_string s) as [[t0 r0]|] eqn:E; intros H; injection H as <- <- <-; [apply scan_string_length in E; cbn; lia|cbn; lia]. }
      destruct (is_digit c) eqn:Ed.
      { destruct (lex_number strtod (String c s)) as [[t0 r0]| |] eqn:E; cbn [rbind]; try discriminate. intros H. injection H as <- <- <-.
        eapply lex_number_progress; eassumption. }
      destruct (scan_ident (String c s) true) as [t0 r0] eqn:E. destruct t0 as [|c0 t0]; [exact inv|].
      apply scan_ident_length in E. destruct (String.eqb _ _); intros H; injection H as <- <- <-; cbn [String.length] in *; lia.
  Qed.
  Lemma lex_token_no_err equ s : lex_token strtod equ s <> RErr.
  Proof.
    unfold lex_token. destruct equ; [destruct (scan_equ s); discriminate|].
    destruct (lex_operator s) as [[t0 r0]|]; [discriminate|]. destruct s as [|c s]; [discriminate|]. cbv zeta.
    assert (inv : (do d <- decode_utf8 (String c s); let '(_, r') := d in if (String.length (String c s) <? decode_length (String c s))%nat then RUb else ROk (TInvalid, r', false)) <> RErr).
    { destruct (decode_utf8 (String c s)) as [[v r0]| |] eqn:E; cbn [rbind]; [destruct (_ <? _)%nat; discriminate|now apply decode_no_err in E|discriminate]. }
    destruct (Ascii.eqb c "'").
    { destruct s as [|d s]; [discriminate|].
      destruct (decode_utf8 (String d s)) as [[v r0]| |] eqn:E; cbn [rbind]; [|now apply decode_no_err in E|discriminate].
      destruct (_ || _); [|discriminate]. intros H.
      repeat match type of H with match ?x with _ => _ end = _ => destruct x; try (apply inv; exact H) end. discriminate. }
    destruct (Ascii.eqb c dquote); [destruct (scan_string s) as [[t0 r0]|]; discriminate|].
    destruct (is_digit c).
    { unfold lex_number. match goal with |- context [scan_number ?a ?b] => destruct (scan_number a b) as [[t0 r0] st] end.
      destruct (_ || _); [destruct (negb _); [discriminate|destruct (strtod t0); discriminate]|].
      destruct (string_to_int _ _ _) as [[z|]| |] eqn:E; cbn [rbind]; try discriminate. now apply string_to_int_no_err in E. }
    destruct (scan_ident (String c s) true) as [t0 r0]. destruct t0 as [|c0 t0]; [exact inv|]. destruct (String.eqb _ _); discriminate.
  Qed.

  (** ** White space *)
  Lemma skip_block_length : forall s r, skip_block s = Some r -> (String.length r < String.length s)%nat.
  Proof.
    induction s as [|c s IH]; intros r; cbn [skip_block]; [discriminate|]. intros H.
    assert (G : skip_block s = Some r -> (String.length r < String.length (String c s))%nat) by (intros G; apply IH in G; cbn; lia).
    repeat match type of H with match ?x with _ => _ end = _ => destruct x; try (apply G; exact H) end.
    injection H as <-. cbn. lia.
  Qed.
  Lemma close_size : forall ls s s' ls', close_comment s ls = (s', ls', false) -> (input_size s' ls' < input_size s ls)%nat.
  Proof.
    induction ls as [|l ls IH]; intros s s' ls'; cbn [close_comment].
    - destruct (skip_block s) as [r|] eqn:E; [|discriminate]. intros H. injection H as <- <-. apply skip_block_length in E. unfold input_size. cbn. lia.
    - destruct (skip_block s) as [r|] eqn:E.
      + intros H. injection H as <- <-. apply skip_block_length in E. unfold input_size. cbn. lia.
      + intros H. apply IH in H. unfold input_size in *. cbn [fold_right]. lia.
  Qed.
  Definition stop (s : string) : Prop :=
    s = "" \/ exists c r, s = String c r /\ is_space c = false /\ is_comment s = false /\ forall x, s <> ("/*" ++ x).
  Lemma skip_lines_spec : forall k s ls s' ls', (input_size s ls < k)%nat -> skip_lines k s ls = (s', ls', false) ->
    (input_size s' ls' <= input_size s ls)%nat /\ stop s'.
  Proof.
    induction k as [|k IH]; intros s ls s' ls' Hk; [lia|]. cbn [skip_lines].
    destruct s as [|c s]; [intros H; injection H as <- <-; split; [lia|now left]|].
    destruct (is_space c) eqn:Es.
    { intros H. apply IH in H; [|unfold input_size in *; cbn in *; lia]. unfold input_size in *. cbn [String.length] in *. split; [lia|apply H]. }
    destruct (is_comment (String c s)) eqn:Ec; [intros H; injection H as <- <-; split; [unfold input_size; cbn; lia|now left]|].
    intros H.
    assert (D : (forall x, String c s <> "/*" ++ x) -> (String c s, ls, false) = (s', ls', false) -> (input_size s' ls' <= input_size (String c s) ls)%nat /\ stop s').
    { intros N E. injection E as <- <-. split; [lia|]. right. exists c, s. auto. }
    repeat match type of H with match ?x with _ => _ end = _ => lazymatch x with close_comment _ _ => fail | _ => idtac end; destruct x; try (apply D; [intros ?; discriminate|exact H]) end.
    destruct (close_comment s ls) as [[r' l'] b] eqn:E. destruct b; [discriminate|].
    pose proof (close_size _ _ _ _ E). unfold input_size in *. cbn [String.length] in *. apply IH in H; [|lia]. split; [lia|apply H].
  Qed.
  Lemma skip_lines_mono : forall k k' s ls, (input_size s ls < k)%nat -> (input_size s ls < k')%nat -> skip_lines k s ls = skip_lines k' s ls.
  Proof.
    induction k as [|k IH]; intros [|k'] s ls Hk Hk'; try lia. cbn [skip_lines].
    destruct s as [|c s]; [reflexivity|]. destruct (is_space c).
    { apply IH; unfold input_size in *; cbn in *; lia. }
    destruct (is_comment (String c s)); [reflexivity|].
    repeat match goal with |- match ?x with _ => _ end = _ => lazymatch x with close_comment _ _ => fail | _ => idtac end; destruct x; try reflexivity end.
    unfold input_size in *; cbn [String.length] in *.
    destruct (close_comment s ls) as [[r' l'] b] eqn:E. destruct b; [reflexivity|].
    pose proof (close_size _ _ _ _ E) as Hl. unfold input_size in Hl. apply IH; lia.
  Qed.

  Lemma skip_spec s ls s' ls' : skip s ls = (s', ls', false) -> (input_size s' ls' <= input_size s ls)%nat /\ stop s'.
  Proof. intros H. eapply skip_lines_spec; [|exact H]. lia. Qed.

  (** ** The loop *)
  Lemma stop_progress equ c s t r e : stop (String c s) -> lex_token strtod equ (String c s) = ROk (t, r, e) -> (String.length r < String.length (String c s))%nat.
  Proof.
    intros [H|[c' [s' [E [_ [Hc _] ] ] ] ] ] Ht; [discriminate|]. eapply lex_token_progress; [|exact Hc|exact Ht]. discriminate.
  Qed.
  Lemma step_ext f g equ s ls : (forall e r l, (input_size r l < input_size s ls)%nat -> f e r l = g e r l) ->
    lex_step strtod f equ s ls = lex_step strtod g equ s ls.
  Proof.
    intros H. unfold lex_step. cbv zeta. destruct (skip s ls) as [[s1 l1] b] eqn:E. destruct b; [reflexivity|].
    apply skip_spec in E. destruct E as [Hsz Hst].
    destruct s1 as [|c r].
    - destruct l1 as [|l l1]; [reflexivity|]. rewrite H; [reflexivity|]. unfold input_size in *. cbn in *. lia.
    - destruct (Ascii.eqb c backslash).
      + destruct (skip r l1) as [[s2 l2] b] eqn:E2. destruct b; [reflexivity|]. apply skip_spec in E2. destruct E2 as [Hsz2 _].
        destruct s2 as [|c2 s2].
        * destruct l2 as [|l l2]; [reflexivity|]. rewrite H; [reflexivity|]. unfold input_size in *. cbn in *. lia.
        * rewrite H; [reflexivity|]. unfold input_size in *. cbn in *. lia.
      + destruct (lex_token strtod equ (String c r)) as [[[t r'] e]| |] eqn:Et; cbn [rbind]; try reflexivity.
        pose proof (stop_progress _ _ _ _ _ _ Hst Et) as Hp. destruct r' as [|c' r'].
        * destruct l1 as [|l l1]; [reflexivity|]. rewrite H; [reflexivity|]. unfold input_size in *. cbn in *. lia.
        * rewrite H; [reflexivity|]. unfold input_size in *. cbn in *. lia.
  Qed.
  Lemma lex_lines_mono : forall k k' equ s ls, (input_size s ls < k)%nat -> (input_size s ls < k')%nat ->
    lex_lines strtod k equ s ls = lex_lines strtod k' equ s ls.
  Proof.
    induction k as [|k IH]; intros [|k'] equ s ls Hk Hk'; try lia. cbn [lex_lines].
    destruct (at_end s ls); [reflexivity|]. apply step_ext. intros e r l Hl. apply IH; lia.
  Qed.
  Lemma lex_from_step equ s ls : at_end s ls = false -> lex_from strtod equ s ls = lex_step strtod (lex_from strtod) equ s ls.
  Proof.
    intros H. unfold lex_from at 1. cbn [lex_lines]. rewrite H. apply step_ext. intros e r l Hl. unfold lex_from. apply lex_lines_mono; lia.
  Qed.
  Lemma lex_from_end equ s ls : at_end s ls = true -> lex_from strtod equ s ls = ROk [].
  Proof. intros H. unfold lex_from. cbn [lex_lines]. now rewrite H. Qed.
  Lemma no_err_bind A B (x : res A) (f : A -> res B) : x <> RErr -> (forall a, f a <> RErr) -> (do a <- x; f a) <> RErr.
  Proof. destruct x; cbn; auto; congruence. Qed.
  Theorem lex_from_total : forall n equ s ls, (input_size s ls < n)%nat -> lex_from strtod equ s ls <> RErr.
  Proof.
    induction n as [|n IH]; intros equ s ls Hn; [lia|].
    destruct (at_end s ls) eqn:Ea; [rewrite lex_from_end by assumption; discriminate|]. rewrite lex_from_step by assumption.
    unfold lex_step. cbv zeta. destruct (skip s ls) as [[s1 l1] b] eqn:E. destruct b; [discriminate|].
    apply skip_spec in E. destruct E as [Hsz Hst].
    assert (G : forall equ r l (tt : list token), (input_size r l < input_size s ls)%nat -> (do ts <- lex_from strtod equ r l; ROk (tt ++ ts)%list) <> RErr).
    { intros e r l tt Hl. apply no_err_bind; [apply IH; lia|discriminate]. }
    destruct s1 as [|c r].
    - destruct l1 as [|l l1]; [discriminate|]. apply G. unfold input_size in *. cbn in *. lia.
    - destruct (Ascii.eqb c backslash).
      + destruct (skip r l1) as [[s2 l2] b] eqn:E2. destruct b; [destruct (String.eqb _ _); discriminate|]. apply skip_spec in E2. destruct E2 as [Hsz2 _].
        destruct s2 as [|c2 s2].
        * destruct l2 as [|l l2]; [discriminate|]. apply G. unfold input_size in *. cbn in *. lia.
        * apply G. unfold input_size in *. cbn in *. lia.
      + destruct (lex_token strtod equ (String c r)) as [[[t r'] e]| |] eqn:Et; cbn [rbind]; [|now apply lex_token_no_err in Et|discriminate].
        pose proof (stop_progress _ _ _ _ _ _ Hst Et) as Hp. destruct r' as [|c' r'].
        * destruct l1 as [|l l1]; [discriminate|]. apply G. unfold input_size in *. cbn in *. lia.
        * apply G. unfold input_size in *. cbn in *. lia.
  Qed.

  (** ** Comments *)
  Lemma skip_block_none x : no_end x -> skip_block x = None.
  Proof.
    induction x as [|c x IH]; intros H; [reflexivity|]. cbn [skip_block].
    assert (IH' : skip_block x = None) by (apply IH; intros a b E; apply (H (String c a) b); now rewrite E).
    destruct x as [|d x]; [destruct c as [[] [] [] [] [] [] [] []]; reflexivity|].
    destruct (Ascii.eqb_spec c "*") as [->|Hc].
    - destruct (Ascii.eqb_spec d "/") as [->|Hd]; [exfalso; now apply (H "" x)|].
      rewrite IH'. destruct d as [[] [] [] [] [] [] [] []]; try reflexivity; congruence.
    - rewrite IH'. destruct c as [[] [] [] [] [] [] [] []]; try reflexivity; congruence.
  Qed.
  Lemma skip_block_first body s : no_end (body ++ "*") -> skip_block (body ++ "*/" ++ s) = Some s.
  Proof.
    induction body as [|c body IH]; intros H; [reflexivity|]. cbn [append skip_block].
    assert (IH' : skip_block (body ++ "*/" ++ s) = Some s) by (apply IH; intros a b E; apply (H (String c a) b); cbn; now rewrite E).
    cbn [append] in IH'. destruct (Ascii.eqb_spec c "*") as [->|Hc].
    - destruct body as [|d body].
      + cbn in *. exact IH'.
      + cbn [append] in *. destruct (Ascii.eqb_spec d "/") as [->|Hd]; [exfalso; now apply (H "" (body ++ "*"))|].
        rewrite IH'. destruct d as [[] [] [] [] [] [] [] []]; try reflexivity; congruence.
    - rewrite IH'. destruct c as [[] [] [] [] [] [] [] []]; try reflexivity; congruence.
  Qed.
  Lemma skip_block_inv : forall x r, skip_block x = Some r -> exists body, x = body ++ "*/" ++ r /\ no_end (body ++ "*").
  Proof.
    induction x as [|c x IH]; intros r; cbn [skip_block]; [discriminate|]. intros H.
    assert (G : (forall y, String c x <> "*/" ++ y) -> skip_block x = Some r -> exists body, String c x = body ++ "*/" ++ r /\ no_end (body ++ "*")).
    { intros N G. destruct (IH _ G) as [body [E Hn] ]. exists (String c body). split; [cbn; now rewrite E|].
      intros a b E'. destruct a as [|a0 a]; cbn in E'; injection E' as -> E'; [|now apply (Hn a b)].
      destruct body as [|d body]; [discriminate E'|]. cbn in E'. injection E' as -> E'. apply (N (body ++ "*/" ++ r)). rewrite E. reflexivity. }
    repeat match type of H with match ?x with _ => _ end = _ => destruct x; try (apply G; [intros ?; discriminate|exact H]) end.
    injection H as <-. exists "". split; [reflexivity|]. intros a b E. destruct a as [|a0 [|a1 a] ]; discriminate.
  Qed.
  Lemma skip_block_tail c x : skip_block (String c x) = None -> skip_block x = None.
  Proof.
    cbn [skip_block]. destruct x as [|d x]; [reflexivity|]. intros H.
    repeat match type of H with match ?y with _ => _ end = _ => lazymatch y with context [skip_block] => fail | _ => idtac end; destruct y; try exact H; try discriminate end.
  Qed.
  Lemma skip_block_none_inv x : skip_block x = None -> no_end x.
  Proof.
    intros H a b E. subst x. revert H. induction a as [|c a IH]; [discriminate|]. cbn [append]. intros H. apply IH. exact (skip_block_tail _ _ H).
  Qed.
  Lemma close_app ls : forall s s' ls' b, close_comment s ls = (s', ls', false) -> close_comment s (ls ++ b) = (s', (ls' ++ b)%list, false).
  Proof.
    induction ls as [|l ls IH]; intros s s' ls' b; cbn [close_comment app].
    - destruct (skip_block s) eqn:E; [|discriminate]. intros H. injection H as <- <-. destruct b; cbn [close_comment]; rewrite E; reflexivity.
    - destruct (skip_block s); [intros H; now injection H as <- <-|]. apply IH.
  Qed.
  Lemma close_between : forall between body last s ls, no_end body -> Forall no_end between -> no_end (last ++ "*") ->
    close_comment body (between ++ (last ++ "*/" ++ s) :: ls) = (s, ls, false).
  Proof.
    induction between as [|x between IH]; intros body last s ls Hb Hf Hl; cbn [close_comment app]; rewrite (skip_block_none _ Hb).
    - cbn [close_comment]. destruct ls; cbn [close_comment]; rewrite (skip_block_first _ _ Hl); reflexivity.
    - inversion Hf; subst. apply IH; assumption.
  Qed.
  Lemma close_inv : forall ls s s' ls', close_comment s ls = (s', ls', false) ->
    (exists body, s = body ++ "*/" ++ s' /\ no_end (body ++ "*") /\ ls' = ls) \/
    (exists between last, ls = (between ++ (last ++ "*/" ++ s')%string :: ls')%list /\ no_end s /\ Forall no_end between /\ no_end (last ++ "*")).
  Proof.
    induction ls as [|l ls IH]; intros s s' ls'; cbn [close_comment]; destruct (skip_block s) as [r|] eqn:E; intros H.
    - injection H as <- <-. apply skip_block_inv in E. destruct E as [b [-> Hn] ]. left. eauto.
    - discriminate.
    - injection H as <- <-. apply skip_block_inv in E. destruct E as [b [-> Hn] ]. left. eauto.
    - apply skip_block_none_inv in E. right. destruct (IH _ _ _ H) as [[b [-> [Hn ->] ] ]|[bt [la [-> [Hn [Hf Hl] ] ] ] ] ].
      + exists [], b. auto.
      + exists (l :: bt), la. auto.
  Qed.

  Lemma skip_space c s ls : is_space c = true -> skip (String c s) ls = skip s ls.
  Proof.
    intros H. transitivity (skip_lines (input_size (String c s) ls) s ls).
    - unfold skip. cbn [skip_lines]. rewrite H. reflexivity.
    - apply skip_lines_mono; unfold input_size; cbn; lia.
  Qed.
  Lemma skip_comment r ls s' ls' : close_comment r ls = (s', ls', false) -> skip ("/*" ++ r) ls = skip s' ls'.
  Proof.
    intros H. transitivity (skip_lines (input_size ("/*" ++ r) ls) s' ls').
    { unfold skip. cbn [skip_lines append]. change (is_space "/") with false. change (is_comment (String "/" (String "*" r))) with false. cbv iota.
      rewrite H. reflexivity. }
    apply skip_lines_mono; [apply close_size in H; unfold input_size in *; cbn in *; lia|lia].
  Qed.
  Theorem skip_blank s ls s' ls' : blank s ls s' ls' -> skip s ls = skip s' ls'.
  Proof.
    induction 1 as [s ls|c s ls s' ls' Hc _ IH|body s ls s' ls' Hn _ IH|body bt la s ls s' ls' Hb Hf Hl _ IH].
    - reflexivity.
    - rewrite skip_space by (destruct Hc as [-> | ->]; reflexivity). exact IH.
    - rewrite <- IH. apply skip_comment. destruct ls; cbn [close_comment]; rewrite (skip_block_first _ _ Hn); reflexivity.
    - rewrite <- IH. apply skip_comment. apply close_between; assumption.
  Qed.
  Theorem skip_inv : forall k s ls s' ls', (input_size s ls < k)%nat -> skip_lines k s ls = (s', ls', false) ->
    exists s'', blank s ls s'' ls' /\ (s'' = s' \/ line_comment s'' /\ s' = "").
  Proof.
    induction k as [|k IH]; intros s ls s' ls' Hk; [lia|]. cbn [skip_lines].
    destruct s as [|c s]; [intros H; injection H as <- <-; exists ""; split; [constructor|now left]|].
    destruct (is_space c) eqn:Es.
    { intros H. apply IH in H; [|unfold input_size in *; cbn in *; lia]. destruct H as [x [Hb Hx] ]. exists x. split; [|exact Hx].
      constructor; [|exact Hb]. unfold is_space in Es. destruct (Ascii.eqb_spec c " "); [auto|]. destruct (Ascii.eqb_spec c "009"); [auto|discriminate]. }
    destruct (is_comment (String c s)) eqn:Ec.
    { intros H. injection H as <- <-. exists (String c s). split; [constructor|]. right. split; [|reflexivity].
      unfold is_comment in Ec.
      repeat match type of Ec with match ?x with _ => _ end = _ => destruct x; try discriminate end; (eexists; (left; reflexivity) || (right; reflexivity)). }
    intros H.
    assert (D : (String c s, ls, false) = (s', ls', false) -> exists s'', blank (String c s) ls s'' ls' /\ (s'' = s' \/ line_comment s'' /\ s' = "")).
    { intros E. injection E as <- <-. exists (String c s). split; [constructor|now left]. }
    repeat match type of H with match ?x with _ => _ end = _ => lazymatch x with close_comment _ _ => fail | _ => idtac end; destruct x; try (apply D; exact H) end.
    destruct (close_comment s ls) as [[r' l'] b] eqn:E. destruct b; [discriminate|].
    pose proof (close_size _ _ _ _ E). apply IH in H; [|unfold input_size in *; cbn [String.length] in *; lia].
    destruct H as [x [Hb Hx] ]. exists x. split; [|exact Hx]. apply close_inv in E.
    destruct E as [[b [-> [Hn ->] ] ]|[bt [la [-> [Hn [Hf Hl] ] ] ] ] ].
    - apply (b_comment b); assumption.
    - apply (b_lines s); assumption.
  Qed.
  Lemma skip_app_fuel b : forall k k' s ls s' ls', (input_size s ls < k)%nat -> (input_size s (ls ++ b) < k')%nat -> skip_lines k s ls = (s', ls', false) ->
    skip_lines k' s (ls ++ b) = (s', (ls' ++ b)%list, false).
  Proof.
    induction k as [|k IH]; intros [|k'] s ls s' ls' Hk Hk'; try lia. cbn [skip_lines].
    destruct s as [|c s]; [intros H; now injection H as <- <-|].
    destruct (is_space c); [apply IH; unfold input_size in *; cbn in *; lia|].
    destruct (is_comment (String c s)); [intros H; now injection H as <- <-|]. intros H.
    repeat match type of H with match ?x with _ => _ end = _ => lazymatch x with close_comment _ _ => fail | _ => idtac end; destruct x; try (now injection H as <- <-) end.
    destruct (close_comment s ls) as [[r' l'] bd] eqn:E. destruct bd; [discriminate|].
    rewrite (close_app _ _ _ _ _ E). pose proof (close_size _ _ _ _ E). pose proof (close_size _ _ _ _ (close_app _ _ _ _ b E)).
    unfold input_size in *. cbn [String.length] in *. apply IH; [lia|lia|exact H].
  Qed.
  Lemma skip_app b s ls s' ls' : skip s ls = (s', ls', false) -> skip s (ls ++ b) = (s', (ls' ++ b)%list, false).
  Proof. apply skip_app_fuel; lia. Qed.
  Lemma blank_suffix s ls s' ls' : blank s ls s' ls' -> exists p, ls = (p ++ ls')%list.
  Proof.
    induction 1 as [s ls|c s ls s' ls' Hc _ IH|body s ls s' ls' Hn _ IH|body bt la s ls s' ls' Hb Hf Hl _ IH].
    - now exists [].
    - exact IH.
    - exact IH.
    - destruct IH as [p ->]. exists (bt ++ (la ++ "*/" ++ s)%string :: p)%list. rewrite <- app_assoc. reflexivity.
  Qed.

  Lemma at_end_spec s ls : at_end s ls = true <-> s = "" /\ ls = [].
  Proof.
    unfold at_end. destruct (String.eqb_spec s ""); destruct ls; cbn; split; try discriminate; auto; intros [? ?]; congruence.
  Qed.
  Lemma at_end_false s ls : s <> "" \/ ls <> [] -> at_end s ls = false.
  Proof. intros H. destruct (at_end s ls) eqn:E; [|reflexivity]. apply at_end_spec in E. destruct E, H; congruence. Qed.
  Lemma step_skip f equ s ls s' ls' : skip s ls = skip s' ls' -> lex_step strtod f equ s ls = lex_step strtod f equ s' ls'.
  Proof. intros H. unfold lex_step. now rewrite H. Qed.
  Lemma blank_end s ls s' ls' : blank s ls s' ls' -> s = "" -> ls = [] -> s' = "" /\ ls' = [].
  Proof. intros H. destruct H; intros E1 E2; auto; discriminate. Qed.
  Theorem lex_blank equ s ls s' ls' : blank s ls s' ls' -> s' <> "" \/ ls' <> [] ->
    lex_from strtod equ s ls = lex_from strtod equ s' ls'.
  Proof.
    intros H N. rewrite !lex_from_step.
    - apply step_skip, skip_blank, H.
    - apply at_end_false, N.
    - destruct (at_end s ls) eqn:E; [|reflexivity]. apply at_end_spec in E. destruct E as [-> ->].
      destruct (blank_end _ _ _ _ H eq_refl eq_refl). destruct N; congruence.
  Qed.
  Lemma skip_line_comment s ls : s = "" \/ line_comment s -> skip s ls = ("", ls, false).
  Proof. intros [-> |[r [-> | ->] ] ]; reflexivity. Qed.
  Theorem lex_line_end equ s ls s' ls' : blank s ls s' ls' -> s <> "" \/ ls <> [] -> s' = "" \/ line_comment s' ->
    lex_from strtod equ s ls = do ts <- lex_rest strtod equ ls'; ROk (TSeparator :: ts).
  Proof.
    intros H N HE. rewrite lex_from_step by (apply at_end_false, N). unfold lex_step. cbv zeta.
    rewrite (skip_blank _ _ _ _ H), (skip_line_comment _ _ HE). destruct ls' as [|l ls']; reflexivity.
  Qed.
  (** What follows a token. *)
  Lemma tl_app (t : token) (x : res (list token)) : (do ts <- x; ROk ([t] ++ ts)%list) = (do ts <- x; ROk (t :: ts)).
  Proof. destruct x; reflexivity. Qed.
  Lemma skip_stop s ls : stop s -> skip s ls = (s, ls, false).
  Proof.
    intros [-> |[c [r [-> [Hs [Hc Hb] ] ] ] ] ]; [reflexivity|]. unfold skip. cbn [skip_lines]. rewrite Hs, Hc.
    repeat match goal with |- match ?x with _ => _ end = _ => lazymatch x with close_comment _ _ => fail | _ => idtac end; destruct x; try reflexivity end.
    exfalso. eapply Hb. reflexivity.
  Qed.
  Theorem lex_next equ s ls t r e : stop s -> s <> "" -> (forall x, s <> String backslash x) -> lex_token strtod equ s = ROk (t, r, e) ->
    lex_from strtod equ s ls =
      do ts <- (match r with "" => do ts <- lex_rest strtod e ls; ROk (TSeparator :: ts) | _ => lex_from strtod e r ls end); ROk (t :: ts).
  Proof.
    intros Hst Hs Hb Ht. rewrite lex_from_step by (apply at_end_false; now left). unfold lex_step. cbv zeta.
    rewrite (skip_stop _ _ Hst). destruct s as [|c s]; [congruence|].
    destruct (Ascii.eqb_spec c backslash) as [->|_]; [exfalso; now apply (Hb s)|].
    rewrite Ht. cbn [rbind]. destruct r as [|c' r].
    - destruct ls as [|l ls]; cbn [lex_rest rbind]; [reflexivity|]. destruct (lex_from strtod e l ls); reflexivity.
    - apply tl_app.
  Qed.

  (** ** Lines *)
  Lemma skip_suffix s ls s' ls' : skip s ls = (s', ls', false) -> exists p, ls = (p ++ ls')%list.
  Proof. intros H. apply skip_inv in H; [|lia]. destruct H as [x [Hb _] ]. eapply blank_suffix. exact Hb. Qed.
  Lemma last_suffix (p q : list string) s r : q <> [] -> last (s :: p ++ q) "" = last (r :: q) "".
  Proof.
    intros Hq. assert (G : forall p s, last (s :: p ++ q) "" = last q "").
    { clear p s. induction p as [|x p IH]; intros s; [destruct q; [congruence|reflexivity]|]. change (last (s :: (x :: p) ++ q) "") with (last (x :: p ++ q) ""). apply IH. }
    rewrite G. destruct q; [congruence|reflexivity].
  Qed.
  Lemma last_app_ne (p q : list string) : q <> [] -> last (p ++ q) "" = last q "".
  Proof. intros Hq. induction p as [|x p IH]; [reflexivity|]. cbn [app last]. destruct (p ++ q)%list eqn:E; [apply app_eq_nil in E; destruct E; congruence|exact IH]. Qed.

  (** Every equ has been given its value. *)
  Definition settled (equ : bool) (ts : list token) : Prop :=
    (equ = true -> exists v, In (TEquValue v) ts) /\ forall p u, ts = (p ++ TEqu :: u)%list -> exists v, In (TEquValue v) u.
  Lemma settled_cons equ t ts : settled equ (t :: ts) -> (forall v, t <> TEquValue v) -> t <> TEqu -> settled equ ts.
  Proof.
    intros [H1 H2] Hv He. split.
    - intros E. destruct (H1 E) as [v [Hin|Hin] ]; [exfalso; eapply Hv; eauto|eauto].
    - intros p u E. apply (H2 (t :: p)). now rewrite E.
  Qed.
  Lemma settled_sub ts : (forall p u, ts = (p ++ TEqu :: u)%list -> exists v, In (TEquValue v) u) -> settled false ts.
  Proof. intros H. split; [discriminate|exact H]. Qed.

  Lemma lex_token_flag equ s t r e : lex_token strtod equ s = ROk (t, r, e) ->
    (equ = true /\ e = false /\ exists v, t = TEquValue v) \/ (equ = false /\ (forall v, t <> TEquValue v) /\ (e = true <-> t = TEqu)).
  Proof.
    unfold lex_token. destruct equ.
    - destruct (scan_equ s) as [t0 r0]. intros H. injection H as <- <- <-. left. eauto.
    - intros H. right. split; [reflexivity|].
      destruct (lex_operator s) as [[t0 r0]|] eqn:Eo.
      { injection H as <- <- <-. unfold lex_operator in Eo.
        repeat match type of Eo with match ?x with _ => _ end = _ => destruct x; try discriminate Eo end;
        injection Eo as <- <-; (split; [discriminate|split; discriminate]). }
      destruct s as [|c s]; [injection H as <- <- <-; split; [discriminate|split; discriminate]|]. cbv zeta in H.
      assert (inv : (do d <- decode_utf8 (String c s); let '(_, r') := d in if (String.length (String c s) <? decode_length (String c s))%nat then RUb else ROk (TInvalid, r', false)) = ROk (t, r, e) -> (forall v, t <> TEquValue v) /\ (e = true <-> t = TEqu)).
      { destruct (decode_utf8 (String c s)) as [[v r0]| |] eqn:E; cbn [rbind]; try discriminate. destruct (_ <? _)%nat; [discriminate|].
        intros H'. injection H' as <- <- <-. split; [discriminate|split; discriminate]. }
      destruct (Ascii.eqb c "'").
      { destruct s as [|d s]; [discriminate|].
        destruct (decode_utf8 (String d s)) as [[v r0]| |] eqn:E; cbn [rbind] in H; try discriminate.
        destruct (_ || _); [|discriminate].
        repeat match type of H with match ?x with _ => _ end = _ => destruct x; try (apply inv; exact H) end.
        injection H as <- <- <-. split; [discriminate|split; discriminate]. }
      destruct (Ascii.eqb c dquote).
      { destruct (scan_string s) as [[t0 r0]|] eqn:E; injection H as <- <- <-; (split; [discriminate|split; discriminate]). }
      destruct (is_digit c) eqn:Ed.
      { unfold lex_number in H. match type of H with context [scan_number ?a ?b] => destruct (scan_number a b) as [[t0 r0] st] end.
        destruct (_ || _); [destruct (negb _); [|destruct (strtod t0)]|destruct (string_to_int _ _ _) as [[z|]| |]]; cbn [rbind] in H; try discriminate;
        injection H as <- <- <-; (split; [discriminate|split; discriminate]). }
      destruct (scan_ident (String c s) true) as [t0 r0] eqn:E. destruct t0 as [|c0 t0]; [apply inv; exact H|].
      destruct (String.eqb _ _); injection H as <- <- <-; (split; [discriminate|split; (reflexivity || discriminate)]).
  Qed.

  Lemma bind_assoc A B C (x : res A) (f : A -> res B) (g : B -> res C) : (do b <- (do a <- x; f a); g b) = (do a <- x; do b <- f a; g b).
  Proof. destruct x; reflexivity. Qed.
  Lemma bind_ok A B (x : res A) (f : A -> B) y : (do a <- x; ROk (f a)) = ROk y -> exists a, x = ROk a /\ y = f a.
  Proof. destruct x; cbn; [intros H; injection H as <-; eauto|discriminate|discriminate]. Qed.
  Lemma app_bind (t ts : list token) (x : res (list token)) :
    (do u <- (do v <- x; ROk (ts ++ v)%list); ROk (t ++ u)%list) = (do v <- x; ROk ((t ++ ts) ++ v)%list).
  Proof. destruct x; cbn; [now rewrite app_assoc|reflexivity|reflexivity]. Qed.

  Theorem lex_from_app b : forall n equ s ls ta, (input_size s ls < n)%nat -> lex_from strtod equ s ls = ROk ta ->
    ~ In TInvalid ta -> settled equ ta -> last (s :: ls) "" <> "" ->
    lex_from strtod equ s (ls ++ b) = do tb <- lex_rest strtod false b; ROk (ta ++ tb)%list.
  Proof.
    induction n as [|n IH]; intros equ s ls ta Hn H Hi He Hl; [lia|].
    assert (Ea : at_end s ls = false).
    { apply at_end_false. destruct ls; [left; exact Hl|right; discriminate]. }
    assert (Ea' : at_end s (ls ++ b) = false).
    { apply at_end_false. destruct ls; [left; exact Hl|right; discriminate]. }
    rewrite lex_from_step in H |- * by assumption. unfold lex_step in *. cbv zeta in *.
    destruct (skip s ls) as [[s1 l1] bad] eqn:Esk. destruct bad; [discriminate|].
    rewrite (skip_app b _ _ _ _ Esk). pose proof (skip_spec _ _ _ _ Esk) as [Hsz Hst]. pose proof (skip_suffix _ _ _ _ Esk) as [p Ep].
    (* the rest of the line is exhausted *)
    assert (F : forall e toks l, (forall l0 ls0, l = l0 :: ls0 -> (input_size l0 ls0 < input_size s ls)%nat /\ last (l0 :: ls0) "" <> "") ->
      (match l with [] => ROk toks | l0 :: ls0 => do ts <- lex_from strtod e l0 ls0; ROk (toks ++ ts)%list end) = ROk ta ->
      (forall ts, ta = (toks ++ ts)%list -> settled e ts) ->
      (match (l ++ b)%list with [] => ROk toks | l0 :: ls0 => do ts <- lex_from strtod e l0 ls0; ROk (toks ++ ts)%list end) =
        do tb <- lex_rest strtod false b; ROk (ta ++ tb)%list).
    { intros e toks l Hll Hta Hse. destruct l as [|l0 ls0]; cbn [app].
      - injection Hta as <-. assert (e = false).
        { destruct e; [|reflexivity]. destruct (Hse [] ltac:(now rewrite app_nil_r)) as [Hx _]. destruct (Hx eq_refl) as [v []]. }
        subst e. destruct b; cbn [lex_rest rbind]; [now rewrite app_nil_r|reflexivity].
      - apply bind_ok in Hta. destruct Hta as [ts [Ets ->] ]. destruct (Hll _ _ eq_refl) as [Hsz0 Hl0].
        rewrite (IH e l0 ls0 ts); [apply app_bind|lia|exact Ets| |apply Hse; reflexivity|exact Hl0].
        intros Hin. apply Hi. apply in_or_app. now right. }
    assert (L : forall q r, ls = (q ++ r)%list -> forall l0 ls0, r = l0 :: ls0 -> last (l0 :: ls0) "" <> "").
    { intros q r -> l0 ls0 ->. rewrite (last_suffix q (l0 :: ls0) s "") in Hl by discriminate. exact Hl. }
    destruct s1 as [|c r].
    - apply F; [|exact H|].
      + intros l0 ls0 E. split; [subst l1; unfold input_size in *; cbn in *; lia|]. eapply L; eauto.
      + intros ts ->. cbn [app] in He. eapply settled_cons; [exact He|discriminate|discriminate].
    - destruct (Ascii.eqb c backslash).
      + destruct (skip r l1) as [[s2 l2] bad2] eqn:E2.
        destruct bad2; [destruct (String.eqb s2 ""); [discriminate|]; injection H as <-; exfalso; apply Hi; now left|].
        rewrite (skip_app b _ _ _ _ E2). pose proof (skip_spec _ _ _ _ E2) as [Hsz2 Hst2]. pose proof (skip_suffix _ _ _ _ E2) as [p2 Ep2].
        destruct s2 as [|c2 s2].
        * apply F; [|exact H|].
          -- intros l0 ls0 E. split; [subst l2; unfold input_size in *; cbn in *; lia|]. eapply (L (p ++ p2)%list); [|exact E]. rewrite <- app_assoc, <- Ep2. exact Ep.
          -- intros ts ->. exact He.
        * exfalso. cbn [String.eqb] in H. apply bind_ok in H. destruct H as [ts [_ ->] ]. apply Hi. now left.
      + destruct (lex_token strtod equ (String c r)) as [[[t r'] e]| |] eqn:Et; cbn [rbind] in *; try discriminate.
        pose proof (stop_progress _ _ _ _ _ _ Hst Et) as Hp. pose proof (lex_token_flag _ _ _ _ _ Et) as Hf.
        assert (S1 : forall ts, ta = (t :: ts)%list -> settled e ts).
        { intros ts ->. destruct He as [He1 He2]. split.
          - intros ->. destruct Hf as [[_ [? _] ]|[_ [_ Hf] ] ]; [discriminate|]. apply (He2 []). destruct Hf as [Hf _]. rewrite (Hf eq_refl). reflexivity.
          - intros q u ->. apply (He2 (t :: q)). reflexivity. }
        destruct r' as [|c' r'].
        * apply F; [|exact H|].
          -- intros l0 ls0 E. split; [subst l1; unfold input_size in *; cbn in *; lia|]. eapply L; eauto.
          -- intros ts E. specialize (S1 (TSeparator :: ts) E). eapply settled_cons; [exact S1|discriminate|discriminate].
        * apply bind_ok in H. destruct H as [ts [Ets ->] ]. rewrite (IH e (String c' r') l1 ts); [apply app_bind| |exact Ets| |apply S1; reflexivity|].
          -- unfold input_size in *. cbn [String.length] in *. lia.
          -- intros Hin. apply Hi. now right.
          -- destruct l1 as [|l0 l1]; [cbn; discriminate|]. change (last (l0 :: l1) "" <> ""). eapply L; eauto.
  Qed.

  (** ** Files without accidents *)
  Lemma plain_tail c s : plain_text (String c s) -> plain_text s.
  Proof.
    intros [H1 [H2 H3] ]. split; [apply H1|]. split.
    - intros a b E. apply (H2 (String c a) b). now rewrite E.
    - intros a b d E. apply (H3 (String c a) b d). now rewrite E.
  Qed.
  Lemma alnum_spec c : is_alnum c = true -> letter_or_digit c.
  Proof.
    unfold is_alnum, is_digit, is_upper, is_lower, between, code, letter_or_digit. cbv zeta. intros H.
    rewrite <- nat_of_ascii_N in H || idtac.
    assert (E : Z.of_N (N_of_ascii c) = Z.of_nat (nat_of_ascii c)) by (unfold nat_of_ascii; lia). rewrite E in H.
    change (Z.of_N (N_of_ascii "0")) with 48%Z in H. change (Z.of_N (N_of_ascii "9")) with 57%Z in H.
    change (Z.of_N (N_of_ascii "A")) with 65%Z in H. change (Z.of_N (N_of_ascii "Z")) with 90%Z in H.
    change (Z.of_N (N_of_ascii "a")) with 97%Z in H. change (Z.of_N (N_of_ascii "z")) with 122%Z in H.
    lia.
  Qed.
  Definition sign_ok (st : num_state) : Prop := n_sign st = true -> n_exp st = true /\ n_hex st = false.
  Lemma scan_number_app s : forall st t r st', scan_number s st = (t, r, st') -> s = t ++ r.
  Proof.
    induction s as [s IH] using (induction_ltof1 _ String.length). unfold ltof in IH.
    intros st t r st'. destruct s as [|c s]; cbn [scan_number]; [intros E; now injection E as <- <- <-|]. cbv zeta.
    assert (K : forall st0, (let '(t, r', st'') := scan_number s st0 in (String c t, r', st'')) = (t, r, st') -> String c s = t ++ r).
    { intros st0. destruct (scan_number s st0) as [[t0 r0] st1] eqn:E. intros E'. injection E' as <- <- <-.
      apply IH in E; [cbn; congruence|cbn; lia]. }
    destruct (is_alnum c || Ascii.eqb c "."); [|intros E; injection E as <- <- <-; reflexivity].
    destruct (Ascii.eqb c "."); [apply K|].
    destruct (Ascii.eqb (lower c) "h" && negb (n_sign st)); [apply K|].
    destruct (Ascii.eqb (lower c) "e" && negb (n_hex st)); [|apply K].
    destruct (n_exp st); [apply K|]. destruct s as [|g s]; [apply K|].
    destruct (Ascii.eqb g "+" || Ascii.eqb g "-"); [|apply K].
    destruct (scan_number s _) as [[t0 r0] st1] eqn:E. intros E'. injection E' as <- <- <-. apply IH in E; [cbn; congruence|cbn; lia].
  Qed.
  Lemma scan_number_flags s : forall st t r st', scan_number s st = (t, r, st') -> sign_ok st ->
    sign_ok st' /\ (n_point st = true -> n_point st' = true) /\ (n_sign st = true -> n_sign st' = true) /\
    (n_point st' = false -> n_sign st' = false -> every letter_or_digit t).
  Proof.
    induction s as [s IH] using (induction_ltof1 _ String.length). unfold ltof in IH.
    intros st t r st'. destruct s as [|c s]; cbn [scan_number]; [intros E Hs; injection E as <- <- <-; cbn; auto|]. cbv zeta.
    destruct (is_alnum c || Ascii.eqb c ".") eqn:Ec; [|intros E Hs; injection E as <- <- <-; cbn; auto].
    destruct (Ascii.eqb c ".") eqn:Ep.
    { destruct (scan_number s _) as [[t0 r0] st1] eqn:E. intros E' Hs. injection E' as <- <- <-.
      apply IH in E; [|cbn; lia|exact Hs]. destruct E as [E1 [E2 [E3 E4] ] ]. cbn in E2, E3. split; [exact E1|]. split; [auto|]. split; [exact E3|].
      intros F. rewrite E2 in F by reflexivity. discriminate. }
    rewrite orb_false_r in Ec. apply alnum_spec in Ec.
    assert (K : forall st0, (sign_ok st -> sign_ok st0) -> n_point st0 = n_point st -> (n_sign st = true -> n_sign st0 = true) -> (let '(t, r', st'') := scan_number s st0 in (String c t, r', st'')) = (t, r, st') -> sign_ok st ->
      sign_ok st' /\ (n_point st = true -> n_point st' = true) /\ (n_sign st = true -> n_sign st' = true) /\
    (n_point st' = false -> n_sign st' = false -> every letter_or_digit t)).
    { intros st0 Hs0 Hp0 Hn0. destruct (scan_number s st0) as [[t0 r0] st1] eqn:E. intros E' Hs. injection E' as <- <- <-.
      apply IH in E; [|cbn; lia|auto]. destruct E as [E1 [E2 [E3 E4] ] ]. rewrite Hp0 in E2. split; [exact E1|]. split; [exact E2|]. split; [auto|]. cbn [every]. auto. }
    destruct (Ascii.eqb (lower c) "h" && negb (n_sign st)) eqn:Eh.
    { apply K; cbn; auto. intros _ F. cbn in F. rewrite F in Eh. rewrite andb_false_r in Eh. discriminate. }
    destruct (Ascii.eqb (lower c) "e" && negb (n_hex st)) eqn:Ee; [|apply K; auto].
    apply andb_true_iff in Ee. destruct Ee as [_ Ehx]. apply negb_true_iff in Ehx.
    assert (K2 : forall v, sign_ok st -> sign_ok (mkNum (n_hex st) (n_point st) true (n_sign st) v)).
    { intros v Hs F. cbn in *. auto. }
    destruct (n_exp st); [apply K; auto|]. destruct s as [|g s]; [apply K; auto|].
    destruct (Ascii.eqb g "+" || Ascii.eqb g "-"); [|apply K; auto].
    destruct (scan_number s _) as [[t0 r0] st1] eqn:E. intros E' Hs. injection E' as <- <- <-. apply IH in E; [|cbn; lia|intros _; cbn; auto].
    destruct E as [E1 [E2 [E3 E4] ] ]. cbn in E2, E3. split; [exact E1|]. split; [exact E2|]. split; [auto|]. intros _ F. rewrite E3 in F by reflexivity. discriminate.
  Qed.
  Lemma digit_value_nonneg c : letter_or_digit c -> (0 <= digit_value c)%Z.
  Proof. 
    unfold letter_or_digit, digit_value. cbv zeta. intros H. assert (L : (48 <= nat_of_ascii c < 123)%nat) by lia. clear H.
    destruct c as [[] [] [] [] [] [] [] []]; try (vm_compute; discriminate); exfalso; vm_compute in L; lia.
  Qed.
  Lemma convert_safe : forall s base acc k, (0 <= base <= 16)%Z -> every letter_or_digit s -> (0 <= acc < 16 ^ Z.of_nat k)%Z -> (k + String.length s <= 15)%nat ->
    convert_digits base acc s <> RUb.
  Proof.
    induction s as [|c s IH]; intros base acc k Hb He Ha Hk; cbn [convert_digits]; [discriminate|]. cbv zeta.
    destruct (Z.leb_spec base (digit_value c)) as [|Hv]; [discriminate|].
    destruct He as [Hc He]. pose proof (digit_value_nonneg c Hc) as Hv0. cbn [String.length] in Hk.
    assert (P : (16 ^ Z.of_nat (S k) = 16 * 16 ^ Z.of_nat k)%Z) by (rewrite Nat2Z.inj_succ, Z.pow_succ_r; lia).
    assert (Q : (16 ^ Z.of_nat (S k) <= 16 ^ 15)%Z) by (apply Z.pow_le_mono_r; lia). change (16 ^ 15)%Z with 1152921504606846976%Z in Q.
    assert (R1 : (0 <= acc * base <= acc * 16)%Z) by nia.
    assert (R2 : (acc * base + digit_value c < 16 ^ Z.of_nat (S k))%Z) by nia.
    replace (in_int64 (acc * base)) with true by (symmetry; unfold in_int64, Ints.int64_min, Ints.int64_max; lia).
    replace (in_int64 (acc * base + digit_value c)) with true by (symmetry; unfold in_int64, Ints.int64_min, Ints.int64_max; lia). cbn [andb].
    apply (IH base _ (S k)); auto; lia.
  Qed.
  Lemma get_app_l : forall t r n, (n < String.length t)%nat -> String.get n (t ++ r) = String.get n t /\ exists c, String.get n t = Some c.
  Proof. induction t as [|c t IH]; intros r n H; cbn in H; [lia|]. destruct n; cbn; [eauto|]. apply IH. lia. Qed.
  Lemma char_at_safe s n : (n <= String.length s)%nat -> char_at s n <> RUb.
  Proof.
    unfold char_at. intros H. destruct (Nat.eq_dec n (String.length s)) as [->|N]; [rewrite Nat.eqb_refl; destruct (String.get _ _); discriminate|].
    destruct (get_app_l s "" n ltac:(lia)) as [_ [c ->] ]. discriminate.
  Qed.
  Lemma every_substring P : forall t r n m, (n + m <= String.length t)%nat \/ m = 0%nat -> every P t -> every P (substring n m (t ++ r)) /\ (String.length (substring n m (t ++ r)) <= m)%nat.
  Proof.
    intros t r n m H He. split; [|apply substring_le]. revert n m H He.
    induction t as [|c t IH]; intros n m H He.
    - assert (m = 0%nat) by (cbn in H; lia). subst m. cbn [append]. clear. revert n. induction r as [|c r IH]; intros [|n]; cbn; auto.
    - cbn [append]. destruct He as [Hc He]. destruct n as [|n], m as [|m]; cbn [substring every]; auto.
      1: split; [exact Hc|]. all: apply IH; [cbn in H; lia|exact He].
  Qed.
  Lemma lex_number_safe c s : is_digit c = true -> plain_text (String c s) -> lex_number strtod (String c s) <> RUb.
  Proof.
    intros Hd Hp. unfold lex_number.
    match goal with |- context [scan_number ?a ?b] => destruct (scan_number a b) as [[t r] st] eqn:E end.
    pose proof (scan_number_app _ _ _ _ _ E) as Ea. pose proof (scan_number_digit _ _ _ _ _ _ Hd E) as Nt.
    apply scan_number_flags in E; [|intros F; discriminate F]. destruct E as [Es [_ [_ El] ] ].
    destruct (n_point st || (n_exp st && negb (n_hex st))) eqn:Eb.
    { destruct (negb (n_valid st)); [discriminate|]. destruct (strtod t); discriminate. }
    apply orb_false_iff in Eb. destruct Eb as [Eb1 Eb2].
    assert (Hsg : n_sign st = false).
    { destruct (n_sign st) eqn:F; [|reflexivity]. destruct (Es F) as [F1 F2]. rewrite F1, F2 in Eb2. discriminate. }
    specialize (El Eb1 Hsg).
    assert (Hlen : (String.length t <= 15)%nat) by (destruct Hp as [_ [_ Hp] ]; apply (Hp "" t r); [exact Ea|exact El]).
    assert (Ht0 : (0 < String.length t)%nat) by (destruct t; [congruence|cbn; lia]).
    rewrite Ea. clear Ea Hp. intros H.
    assert (G : string_to_int (t ++ r) 0 (String.length t) <> RUb).
    { clear H. unfold string_to_int.
      assert (Hl : String.length (t ++ r) = (String.length t + String.length r)%nat) by (clear; induction t; cbn; auto).
      destruct (char_at (t ++ r) 0) as [c0| |] eqn:E0; cbn [rbind]; [|discriminate|exfalso; revert E0; apply char_at_safe; lia].
      destruct (if Ascii.eqb c0 "0" then char_at (t ++ r) (0 + 1) else ROk "000"%char) as [c1| |] eqn:E1; cbn [rbind];
        [|discriminate|destruct (Ascii.eqb c0 "0"); [exfalso; revert E1; apply char_at_safe; lia|discriminate]].
      destruct (char_at (t ++ r) (String.length t - 1)) as [c2| |] eqn:E2; cbn [rbind]; [|discriminate|exfalso; revert E2; apply char_at_safe; lia].
      cbv zeta.
      assert (K : forall base start stop, (0 <= base <= 16)%Z -> (stop <= String.length t)%nat -> convert_digits base 0 (substring start (stop - start) (t ++ r)) <> RUb).
      { intros base start stop0 Hb Hst. destruct (every_substring letter_or_digit t r start (stop0 - start)) as [P1 P2]; [lia|exact El|].
        apply (convert_safe _ base 0 0); [exact Hb|exact P1|cbn; lia|lia]. }
      destruct (Ascii.eqb c0 "0");
      repeat match goal with |- context [if ?b then (_, _) else _] => destruct b end; apply K; lia. }
    destruct (string_to_int (t ++ r) 0 (String.length t)) as [[z|]| |]; cbn [rbind] in H; congruence.
  Qed.
  Lemma decode_plain c s : (nat_of_ascii c < 128)%nat -> exists v r, decode_utf8 (String c s) = ROk (v, r) /\ decode_length (String c s) = 1%nat.
  Proof.
    intros H. unfold decode_utf8, decode_length. cbn [char_at rbind String.get]. change (char_at (String c s) 0) with (@ROk ascii c). cbn [rbind]. cbv zeta.
    assert (E : (Z.land (scode c) 224 =? 192)%Z = false /\ (Z.land (scode c) 240 =? 224)%Z = false).
    { destruct c as [[] [] [] [] [] [] [] []]; try (split; vm_compute; reflexivity); exfalso; vm_compute in H; lia. }
    destruct E as [-> ->]. eauto.
  Qed.
  Lemma lex_token_safe equ c s : plain_text (String c s) -> lex_token strtod equ (String c s) <> RUb.
  Proof.
    intros Hp. unfold lex_token. destruct equ; [destruct (scan_equ _); discriminate|].
    destruct (lex_operator (String c s)) as [[t0 r0]|]; [discriminate|]. cbv zeta.
    destruct Hp as [[ [H1 H1'] H1s] [H2 H3] ] eqn:Ep. clear Ep.
    destruct (Ascii.eqb_spec c "'") as [->|_]; [congruence|].
    destruct (Ascii.eqb c dquote); [destruct (scan_string s) as [[? ?]|]; discriminate|].
    destruct (is_digit c) eqn:Ed.
    { pose proof (lex_number_safe c s Ed Hp) as Hn. destruct (lex_number strtod (String c s)) as [[? ?]| |]; cbn [rbind]; congruence. }
    destruct (scan_ident (String c s) true) as [t r]. destruct t; [|destruct (String.eqb _ _); discriminate].
    destruct (decode_plain c s H1) as [v [r' [-> ->] ] ]. cbn [rbind String.length]. destruct (Nat.ltb_spec (S (String.length s)) 1); [lia|discriminate].
  Qed.
  Lemma plain_app p s : plain_text (p ++ s) -> plain_text s.
  Proof. induction p as [|c p IH]; cbn; [auto|]. intros H. apply plain_tail in H. auto. Qed.
  Lemma lex_token_suffix equ s t r e : lex_token strtod equ s = ROk (t, r, e) -> exists p, s = p ++ r.
  Proof.
    assert (SubEnd : forall x n, exists p, x = p ++ substring n (String.length x - n) x).
    { induction x as [|c x IH]; intros n; [exists ""; now destruct n|]. destruct n as [|n].
      - exists "". cbn [append]. clear. change (String.length (String c x) - 0)%nat with (S (String.length x)). cbn [substring]. f_equal. induction x; cbn; congruence.
      - destruct (IH n) as [p Hp]. exists (String c p). cbn [append]. change (String.length (String c x) - S n)%nat with (String.length x - n)%nat. cbn [substring]. congruence. }
    assert (Dec : forall x v y, decode_utf8 x = ROk (v, y) -> exists p, x = p ++ y).
    { intros x v y H. unfold decode_utf8 in H. cbv zeta in H.
      repeat match type of H with
      | (if ?b then _ else _) = _ => destruct b
      | (do _ <- ?x; _) = _ => destruct x; cbn [rbind] in H; try discriminate
      end; injection H as _ <-; apply SubEnd. }
    unfold lex_token. destruct equ.
    - intros H. destruct (scan_equ s) as [t0 r0] eqn:E. injection H as <- <- <-. exists t0. revert t0 r0 E.
      induction s as [|c s IH]; intros t0 r0; cbn [scan_equ]; [intros E; now injection E as <- <-|].
      destruct (is_comment (String c s)); [intros E; now injection E as <- <-|].
      destruct (scan_equ s) as [t1 r1]. intros E. injection E as <- <-. cbn. f_equal. now apply IH.
    - destruct (lex_operator s) as [[t0 r0]|] eqn:Eo.
      { intros H. injection H as <- <- <-. unfold lex_operator in Eo.
        repeat match type of Eo with match ?x with _ => _ end = _ => destruct x; try discriminate Eo end;
        injection Eo as <- <-; first [eexists (String _ ""); reflexivity|eexists (String _ (String _ "")); reflexivity]. }
      destruct s as [|c s]; [intros H; injection H as <- <- <-; now exists ""|]. cbv zeta.
      assert (inv : (do d <- decode_utf8 (String c s); let '(_, r') := d in if (String.length (String c s) <? decode_length (String c s))%nat then RUb else ROk (TInvalid, r', false)) = ROk (t, r, e) -> exists p, String c s = p ++ r).
      { destruct (decode_utf8 (String c s)) as [[v r0]| |] eqn:E; cbn [rbind]; try discriminate. destruct (_ <? _)%nat; [discriminate|].
        intros H. injection H as <- <- <-. eapply Dec. eassumption. }
      destruct (Ascii.eqb c "'").
      { destruct s as [|d s]; [discriminate|].
        destruct (decode_utf8 (String d s)) as [[v r0]| |] eqn:E; cbn [rbind]; try discriminate.
        destruct (_ || _); [|discriminate]. apply Dec in E. destruct E as [p E]. intros H.
        repeat match type of H with match ?x with _ => _ end = _ => destruct x; try (apply inv; exact H) end.
        injection H as <- <- <-. exists (String c (p ++ "'")). cbn. rewrite E. f_equal. clear. induction p; cbn; congruence. }
      destruct (Ascii.eqb c dquote).
      { destruct (scan_string s) as [[t0 r0]|] eqn:E; intros H; injection H as <- <- <-.
        - apply scan_sound in E. destruct E as [raw [-> _] ]. exists (String c (raw ++ String dquote "")). cbn. f_equal. clear. induction raw; cbn; congruence.
        - exists (String c s). clear. cbn. f_equal. induction s; cbn; congruence. }
      destruct (is_digit c) eqn:Ed.
      { unfold lex_number. match goal with |- context [scan_number ?a ?b] => destruct (scan_number a b) as [[t0 r0] st] eqn:E end.
        apply scan_number_app in E. rewrite E. intros H. exists t0.
        assert (r = r0); [|now subst].
        destruct (_ || _); [destruct (negb _); [|destruct (strtod t0)]|destruct (string_to_int _ _ _) as [[z|]| |]]; cbn [rbind] in H; congruence. }
      destruct (scan_ident (String c s) true) as [t0 r0] eqn:E. destruct t0 as [|c0 t0]; [exact inv|]. intros H.
      assert (r = r0) by (destruct (String.eqb _ _); congruence). subst r0. exists (String c0 t0). clear H inv. revert E. generalize true, (String c0 t0), (String c s). clear.
      intros f t s. revert f t. induction s as [|c s IH]; intros f t; cbn [scan_ident]; [intros E; now injection E as <- <-|].
      destruct (symbol_char c f); [|intros E; now injection E as <- <-].
      destruct (scan_ident s false) as [t1 r1] eqn:E1. intros E. injection E as <- <-. cbn. f_equal. eapply IH. exact E1.
  Qed.
  Lemma blank_plain s ls s' ls' : blank s ls s' ls' -> plain_text s -> Forall plain_text ls -> plain_text s' /\ ls' = ls.
  Proof.
    induction 1 as [s ls|c s ls s' ls' Hc _ IH|body s ls s' ls' Hn _ IH|body bt la s ls s' ls' Hb Hf Hl _ IH]; intros Hp Hq.
    - auto.
    - apply IH; [eapply plain_tail; eassumption|assumption].
    - exfalso. destruct Hp as [_ [Hp _] ]. now apply (Hp "" (body ++ "*/" ++ s)).
    - exfalso. destruct Hp as [_ [Hp _] ]. now apply (Hp "" body).
  Qed.
  Lemma plain_empty : plain_text "".
  Proof.
    split; [exact I|]. split; [intros [|a] b; discriminate|]. intros a b c E _. destruct a, b; try discriminate. cbn. lia.
  Qed.
  Lemma skip_plain s ls : plain_text s -> Forall plain_text ls -> exists s', skip s ls = (s', ls, false) /\ plain_text s'.
  Proof.
    intros Hp Hq. destruct (skip s ls) as [[s1 l1] b] eqn:E. destruct b.
    - exfalso. revert E. unfold skip. generalize (S (input_size s ls)). intros k. revert s Hp. induction k as [|k IH]; intros s Hp; cbn [skip_lines]; [discriminate|].
      destruct s as [|c s]; [discriminate|]. destruct (is_space c); [apply IH; eapply plain_tail; eassumption|].
      destruct (is_comment (String c s)); [discriminate|]. intros H.
      repeat match type of H with match ?x with _ => _ end = _ => lazymatch x with close_comment _ _ => fail | _ => idtac end; destruct x; try discriminate H end.
      destruct Hp as [_ [Hp _] ]. now apply (Hp "" s).
    - apply skip_inv in E; [|lia]. destruct E as [x [Hb Hx] ]. destruct (blank_plain _ _ _ _ Hb Hp Hq) as [Hx' ->]. exists s1. split; [reflexivity|].
      destruct Hx as [-> |[_ ->] ]; [exact Hx'|apply plain_empty].
  Qed.
  Theorem lex_from_safe : forall n equ s ls, (input_size s ls < n)%nat -> plain_text s -> Forall plain_text ls -> lex_from strtod equ s ls <> RUb.
  Proof.
    induction n as [|n IH]; intros equ s ls Hn Hp Hq; [lia|].
    destruct (at_end s ls) eqn:Ea; [rewrite lex_from_end by assumption; discriminate|]. rewrite lex_from_step by assumption.
    unfold lex_step. cbv zeta. destruct (skip_plain s ls Hp Hq) as [s1 [E Hp1] ]. rewrite E.
    apply skip_spec in E. destruct E as [Hsz Hst].
    assert (G : forall equ r l (tt : list token), (input_size r l < input_size s ls)%nat -> plain_text r -> Forall plain_text l -> (do ts <- lex_from strtod equ r l; ROk (tt ++ ts)%list) <> RUb).
    { intros e r l tt Hl Hr Hl'. specialize (IH e r l ltac:(lia) Hr Hl'). destruct (lex_from strtod e r l); cbn; congruence. }
    destruct s1 as [|c r].
    - destruct ls as [|l l1]; [discriminate|]. inversion Hq; subst. apply G; try assumption; unfold input_size in *; cbn in *; lia.
    - destruct (Ascii.eqb c backslash).
      + destruct (skip_plain r ls (plain_tail _ _ Hp1) Hq) as [s2 [E2 Hp2] ]. rewrite E2. apply skip_spec in E2. destruct E2 as [Hsz2 _].
        destruct s2 as [|c2 s2].
        * destruct ls as [|l l2]; [discriminate|]. inversion Hq; subst. apply G; try assumption; unfold input_size in *; cbn in *; lia.
        * apply G; try assumption; unfold input_size in *; cbn in *; lia.
      + destruct (lex_token strtod equ (String c r)) as [[[t r'] e]| |] eqn:Et; cbn [rbind]; [|discriminate|now apply lex_token_safe in Et].
        pose proof (stop_progress _ _ _ _ _ _ Hst Et) as Hpr. destruct (lex_token_suffix _ _ _ _ _ Et) as [p Epp].
        assert (Hr' : plain_text r') by (apply (plain_app p); rewrite <- Epp; exact Hp1).
        destruct r' as [|c' r'].
        * destruct ls as [|l l1]; [discriminate|]. inversion Hq; subst. apply G; try assumption; unfold input_size in *; cbn in *; lia.
        * apply G; try assumption; unfold input_size in *; cbn in *; lia.
  Qed.

  (** ** The statements of TokProps *)
  Lemma quote_stop s : stop (String quote s).
  Proof. right. exists quote, s. repeat split; try reflexivity. discriminate. Qed.
  Theorem literal raw t rest ls : spells raw t ->
    lex_from strtod false (String quote (raw ++ String quote rest)) ls =
    do ts <- (match rest with "" => do ts <- lex_rest strtod false ls; ROk (TSeparator :: ts)
              | _ => lex_from strtod false rest ls end);
    ROk (TStr t :: ts).
  Proof.
    intros H. apply lex_next; [apply quote_stop|discriminate|discriminate|].
    change quote with dquote. rewrite string_token, (scan_spells raw t rest H). reflexivity.
  Qed.
  Theorem unterminated s ls : (forall raw t rest, spells raw t -> s <> raw ++ String quote rest) ->
    lex_from strtod false (String quote s) ls = do ts <- lex_rest strtod false ls; ROk (TInvalid :: TSeparator :: ts).
  Proof.
    intros H. assert (E : scan_string s = None).
    { destruct (scan_string s) as [[t r]|] eqn:E; [|reflexivity]. apply scan_sound in E. destruct E as [raw [E Hs] ]. exfalso. eapply H; eauto. }
    rewrite (lex_next false _ ls TInvalid "" false); [|apply quote_stop|discriminate|discriminate|change quote with dquote; rewrite string_token, E; reflexivity].
    destruct (lex_rest strtod false ls); reflexivity.
  Qed.
  Lemma not_comment s : is_comment s = false -> ~ line_comment s.
  Proof. intros H [r [-> | ->] ]; discriminate. Qed.
  Theorem skip_only s ls s' ls' : skip s ls = (s', ls', false) ->
    exists s'', blank s ls s'' ls' /\
      (s'' = s' /\ (s' = "" \/ exists c r, s' = String c r /\ c <> " "%char /\ c <> "009"%char /\ ~ line_comment s' /\ forall x, s' <> "/*" ++ x)
       \/ line_comment s'' /\ s' = "").
  Proof.
    intros H. pose proof (skip_spec _ _ _ _ H) as [_ Hst]. apply skip_inv in H; [|lia]. destruct H as [x [Hb Hx] ]. exists x. split; [exact Hb|].
    destruct Hx as [-> |Hx]; [left|right; exact Hx]. split; [reflexivity|]. destruct Hst as [-> |[c [r [-> [Hs [Hc Hn] ] ] ] ] ]; [now left|right].
    exists c, r. split; [reflexivity|]. split; [intros ->; discriminate|]. split; [intros ->; discriminate|]. split; [apply not_comment; exact Hc|exact Hn].
  Qed.
  Theorem file_app a b ta : tokenize_file strtod a = ROk ta -> ~ In TInvalid ta ->
    (forall p u, ta = (p ++ TEqu :: u)%list -> exists v, In (TEquValue v) u) -> last a "" <> "" ->
    tokenize_file strtod (a ++ b) = do tb <- tokenize_file strtod b; ROk (ta ++ tb)%list.
  Proof.
    intros H Hi He Hl. destruct a as [|l a]; [now cbn in Hl|]. unfold tokenize_file in *. cbn [lex_rest app] in *.
    eapply lex_from_app; [apply Nat.lt_succ_diag_r|exact H|exact Hi|apply settled_sub; exact He|exact Hl].
  Qed.
  Theorem file_total lines : tokenize_file strtod lines <> RErr.
  Proof. destruct lines as [|l ls]; [discriminate|]. eapply lex_from_total. apply Nat.lt_succ_diag_r. Qed.
  Theorem file_safe lines : Forall plain_text lines -> exists ts, tokenize_file strtod lines = ROk ts.
  Proof.
    intros H. assert (G : tokenize_file strtod lines <> RUb).
    { destruct H as [|l ls Hl Hls]; [discriminate|]. eapply lex_from_safe; [apply Nat.lt_succ_diag_r|exact Hl|exact Hls]. }
    pose proof (file_total lines). destruct (tokenize_file strtod lines); [eauto|congruence|congruence].
  Qed.
  Theorem open_comment text : no_end text -> tokenize_file strtod ["/*" ++ text] = RUb.
  Proof.
    intros H. unfold tokenize_file. cbn [lex_rest]. rewrite lex_from_step by reflexivity. unfold lex_step. cbv zeta.
    replace (skip ("/*" ++ text) []) with (text, @nil string, true); [reflexivity|]. unfold skip. cbn [skip_lines append].
    change (is_space "/") with false. change (is_comment (String "/" (String "*" text))) with false. cbv iota. cbn [close_comment].
    rewrite (skip_block_none _ H). reflexivity.
  Qed.
End F.

(** A check for the length of runs of letters and digits. *)
Fixpoint run_length (s : string) : nat := match s with String c s => if is_alnum c then S (run_length s) else 0%nat | "" => 0%nat end.
Fixpoint check_runs (n : nat) (s : string) : bool :=
  (run_length s <=? n)%nat && match s with "" => true | String c s => check_runs n s end.
Lemma spec_alnum c : letter_or_digit c -> is_alnum c = true.
Proof.
  unfold is_alnum, is_digit, is_upper, is_lower, between, code, letter_or_digit. cbv zeta. intros H.
  assert (E : Z.of_N (N_of_ascii c) = Z.of_nat (nat_of_ascii c)) by (unfold nat_of_ascii; lia). rewrite E.
  change (Z.of_N (N_of_ascii "0")) with 48%Z. change (Z.of_N (N_of_ascii "9")) with 57%Z.
  change (Z.of_N (N_of_ascii "A")) with 65%Z. change (Z.of_N (N_of_ascii "Z")) with 90%Z.
  change (Z.of_N (N_of_ascii "a")) with 97%Z. change (Z.of_N (N_of_ascii "z")) with 122%Z.
  lia.
Qed.
Lemma run_ge : forall b c, every letter_or_digit b -> (String.length b <= run_length (b ++ c))%nat.
Proof. induction b as [|x b IH]; intros c H; cbn in *; [lia|]. rewrite (spec_alnum x) by apply H. specialize (IH c). destruct H. apply IH in H0. lia. Qed.
Lemma runs_sound : forall n s a b c, s = a ++ b ++ c -> every letter_or_digit b -> check_runs n s = true -> (String.length b <= n)%nat.
Proof.
  intros n s a b c -> Hb. induction a as [|x a IH]; cbn [append]; intros H.
  - pose proof (run_ge b c Hb). destruct (b ++ c); cbn [check_runs] in H; apply andb_true_iff in H; destruct H as [H _]; apply Nat.leb_le in H; lia.
  - cbn [check_runs] in H. apply andb_true_iff in H. apply IH, H.
Qed.
