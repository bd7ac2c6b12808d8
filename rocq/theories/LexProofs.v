(** Proofs about number literals: the tokenizer reads a literal as the number it denotes. *)

Require Import ZArith List String Ascii Bool Lia.
Require Import ZifyBool.
From Verif Require Import Ints Res ExprModel ParseModel LexModel LexSpec.
Import ListNotations.
Local Open Scope char_scope.
Local Open Scope Z_scope.

(** ** Characters: statements over all 256 of them are checked by enumeration. *)

Definition all_chars : list ascii := List.map ascii_of_nat (seq 0 256).
Lemma all_chars_in : forall c, In c all_chars.
Proof.
  intros c. rewrite <- (ascii_nat_embedding c). apply in_map. apply in_seq.
  pose proof (nat_ascii_bounded c). lia.
Qed.
Lemma by_chars : forall f : ascii -> bool, forallb f all_chars = true -> forall c, f c = true.
Proof. intros f H c. rewrite forallb_forall in H. apply H. apply all_chars_in. Qed.

Definition opt_eqb (a b : option Z) : bool :=
  match a, b with Some x, Some y => x =? y | None, None => true | _, _ => false end.

Lemma digit_value_digit : forall c, is_alnum c = true ->
  digit c = if digit_value c <? 16 then Some (digit_value c) else None.
Proof.
  intros c H.
  assert (A : forall c, implb (is_alnum c)
     (opt_eqb (digit c) (if digit_value c <? 16 then Some (digit_value c) else None)) = true)
    by (apply by_chars; vm_compute; reflexivity).
  specialize (A c). rewrite H in A. cbn [implb] in A.
  destruct (digit c), (digit_value c <? 16); cbn in A; try discriminate; [|reflexivity].
  apply Z.eqb_eq in A. congruence.
Qed.

Lemma digit_alnum : forall c d, digit c = Some d -> is_alnum c = true /\ 0 <= d < 16.
Proof.
  intros c d H.
  assert (A : forall c, match digit c with Some d => is_alnum c && (0 <=? d) && (d <? 16) | None => true end = true)
    by (apply by_chars; vm_compute; reflexivity).
  specialize (A c). rewrite H in A. lia.
Qed.

Lemma digit_value_nonneg : forall c, is_alnum c = true -> 0 <= digit_value c < 36.
Proof.
  intros c H.
  assert (A : forall c, implb (is_alnum c) ((0 <=? digit_value c) && (digit_value c <? 36)) = true)
    by (apply by_chars; vm_compute; reflexivity).
  specialize (A c). rewrite H in A. cbn [implb] in A. lia.
Qed.

Lemma digit_in_value : forall base c, base <= 16 -> is_alnum c = true ->
  digit_in base c = if base <=? digit_value c then None else Some (digit_value c).
Proof.
  intros base c Hb H. unfold digit_in. rewrite (digit_value_digit c H).
  destruct (Z.ltb_spec (digit_value c) 16), (Z.leb_spec base (digit_value c)); try lia; try reflexivity.
  - rewrite (proj2 (Z.ltb_ge _ _)) by lia. reflexivity.
  - rewrite (proj2 (Z.ltb_lt _ _)) by lia. reflexivity.
Qed.

Lemma letter_or_digit_alnum : forall c, letter_or_digit c <-> is_alnum c = true.
Proof.
  intros c. split.
  - intros [i [Hi ->]].
    assert (A : forallb (fun i => is_alnum (ascii_of_nat i)) (seq 48 10 ++ seq 65 26 ++ seq 97 26)%list = true)
      by (vm_compute; reflexivity).
    rewrite forallb_forall in A. apply A. exact Hi.
  - intros H. exists (nat_of_ascii c). split; [|symmetry; apply ascii_nat_embedding].
    assert (A : forall c, implb (is_alnum c)
      (existsb (Nat.eqb (nat_of_ascii c)) (seq 48 10 ++ seq 65 26 ++ seq 97 26)%list) = true)
      by (apply by_chars; vm_compute; reflexivity).
    specialize (A c). rewrite H in A. cbn [implb] in A. apply existsb_exists in A.
    destruct A as [x [Hx He]]. apply Nat.eqb_eq in He. rewrite He. exact Hx.
Qed.

(** ** Strings *)

Fixpoint all (p : ascii -> bool) (s : string) : bool :=
  match s with EmptyString => true | String c r => p c && all p r end.

Lemma all_app : forall p a b, all p (a ++ b) = all p a && all p b.
Proof. induction a as [|c a IH]; intros b; cbn; [reflexivity|]. rewrite IH. apply andb_assoc. Qed.

Lemma app_nil_r_s : forall s, (s ++ "")%string = s.
Proof. induction s as [|c s IH]; cbn; [reflexivity|]. now rewrite IH. Qed.
Lemma app_assoc_s : forall a b c, ((a ++ b) ++ c)%string = (a ++ (b ++ c))%string.
Proof. induction a as [|x a IH]; intros; cbn; [reflexivity|]. now rewrite IH. Qed.
Lemma length_app_s : forall a b, String.length (a ++ b) = (String.length a + String.length b)%nat.
Proof. induction a as [|x a IH]; intros; cbn; [reflexivity|]. now rewrite IH. Qed.

Lemma snoc : forall s, s <> EmptyString -> exists u c, s = (u ++ String c "")%string.
Proof.
  induction s as [|x s IH]; intros H; [contradiction|].
  destruct s as [|y s]; [exists EmptyString, x; reflexivity|].
  destruct IH as [u [c E]]; [discriminate|]. exists (String x u), c. cbn. now rewrite <- E.
Qed.

Lemma snoc_inj : forall a b c d, (a ++ String c "")%string = (b ++ String d "")%string -> a = b /\ c = d.
Proof.
  induction a as [|x a IH]; intros b c d H; destruct b as [|y b]; cbn in H.
  - injection H as ->. auto.
  - destruct b; discriminate H.
  - destruct a; discriminate H.
  - injection H as -> H. destruct (IH _ _ _ H) as [-> ->]. auto.
Qed.

Lemma substring_prefix : forall a b, String.substring 0 (String.length a) (a ++ b) = a.
Proof. induction a as [|x a IH]; intros b; cbn; [destruct b; reflexivity|]. now rewrite IH. Qed.

Lemma get_last : forall u c b, String.get (String.length u) (u ++ String c b) = Some c.
Proof. induction u as [|x u IH]; intros; cbn; [reflexivity|]. apply IH. Qed.

(** ** Digit conversion *)

Lemma convert_digits_value : forall base s acc v, 2 <= base <= 16 -> 0 <= acc ->
  number_from base acc s = Some v -> v <= int64_max -> convert_digits base acc s = ROk (Some v).
Proof.
  intros base s. induction s as [|c s IH]; intros acc v Hb Ha H Hv; cbn in *.
  - injection H as ->. reflexivity.
  - destruct (digit_in base c) as [d|] eqn:Ed; [|discriminate].
    assert (Hd : is_alnum c = true /\ 0 <= d < 16).
    { unfold digit_in in Ed. destruct (digit c) as [d'|] eqn:E; [|discriminate].
      destruct (d' <? base); [|discriminate]. injection Ed as ->. now apply digit_alnum. }
    destruct Hd as [Hal Hd]. rewrite (digit_in_value base c ltac:(lia) Hal) in Ed.
    destruct (base <=? digit_value c); [discriminate|]. injection Ed as <-.
    assert (Hge : forall s acc v, 0 <= acc -> number_from base acc s = Some v -> acc <= v).
    { clear - Hb. induction s as [|c s IH]; intros acc v Ha H; cbn in H; [injection H as ->; lia|].
      destruct (digit_in base c) as [d|] eqn:Ed; [|discriminate].
      unfold digit_in in Ed. destruct (digit c) as [d'|] eqn:E; [|discriminate].
      destruct (d' <? base); [|discriminate]. injection Ed as ->. apply digit_alnum in E.
      apply IH in H; nia. }
    assert (P : 0 <= acc * base) by nia.
    assert (P2 : 0 <= acc * base + digit_value c) by lia.
    pose proof (Hge _ _ _ P2 H) as Hle.
    assert (B : in_int64 (acc * base) && in_int64 (acc * base + digit_value c) = true).
    { unfold in_int64, int64_min, int64_max in *. lia. }
    rewrite B. apply IH; try assumption.
Qed.

Lemma convert_digits_sound : forall base s acc v, 2 <= base <= 16 -> 0 <= acc ->
  all is_alnum s = true ->
  convert_digits base acc s = ROk (Some v) -> number_from base acc s = Some v /\ v <= Z.max acc int64_max.
Proof.
  intros base s. induction s as [|c s IH]; intros acc v Hb Ha Hal H; cbn in *.
  - injection H as ->. split; [reflexivity|lia].
  - apply andb_prop in Hal. destruct Hal as [Hc Hal].
    rewrite (digit_in_value base c ltac:(lia) Hc). pose proof (digit_value_nonneg c Hc).
    destruct (base <=? digit_value c); [discriminate|].
    destruct (in_int64 (acc * base) && in_int64 (acc * base + digit_value c)) eqn:B; [|discriminate].
    apply IH in H; [|assumption|nia|assumption]. destruct H as [H1 H2]. split; [exact H1|].
    unfold in_int64 in B. lia.
Qed.

(** ** The base of a literal *)

(** The last character. *)
Fixpoint last_char (s : string) : ascii :=
  match s with EmptyString => "000" | String c EmptyString => c | String _ r => last_char r end.
Lemma last_snoc : forall u c, last_char (u ++ String c "") = c.
Proof. induction u as [|x u IH]; intros c; cbn; [reflexivity|]. rewrite IH. destruct u; reflexivity. Qed.

Fixpoint init (s : string) : string :=
  match s with EmptyString => EmptyString | String c EmptyString => EmptyString | String c r => String c (init r) end.
Lemma init_snoc : forall u c, init (u ++ String c "") = u.
Proof.
  induction u as [|x u IH]; intros c; [reflexivity|]. cbn [append init].
  destruct (u ++ String c "")%string eqn:E; [destruct u; discriminate|]. rewrite <- E, IH. reflexivity.
Qed.

(** [string_to_int] on a whole token, without indices. *)
Definition read_suffixed (t : string) : res (option Z) :=
  let l := lower (last_char t) in
  if Ascii.eqb l "h" then convert_digits 16 0 (init t)
  else if Ascii.eqb l "b" then convert_digits 2 0 (init t)
  else if Ascii.eqb l "o" then convert_digits 8 0 (init t)
  else convert_digits 10 0 t.
Definition read_literal (t : string) : res (option Z) :=
  match t with
  | String c0 (String c1 ds) =>
      if Ascii.eqb c0 "0" then
        if Ascii.eqb (lower c1) "x" then convert_digits 16 0 ds
        else if Ascii.eqb (lower c1) "o" then convert_digits 8 0 ds
        else if Ascii.eqb (lower c1) "b" && negb (Ascii.eqb (lower (last_char t)) "h")
             then convert_digits 2 0 ds
        else read_suffixed t
      else read_suffixed t
  | _ => read_suffixed t
  end.

Lemma get_first : forall t rest c u, t = String c u -> char_at (t ++ rest) 0 = ROk c.
Proof. intros t rest c u ->. reflexivity. Qed.

Lemma stop_char : forall rest, ends_number rest ->
  exists c, char_at rest 0 = ROk c /\ is_alnum c = false.
Proof.
  intros [|c rest] H; [exists "000"; split; reflexivity|]. exists c. split; [reflexivity|].
  destruct H as [H _]. destruct (is_alnum c) eqn:E; [|reflexivity].
  apply letter_or_digit_alnum in E. contradiction.
Qed.

Lemma non_alnum_prefix : forall c, is_alnum c = false ->
  Ascii.eqb (lower c) "x" = false /\ Ascii.eqb (lower c) "o" = false /\ Ascii.eqb (lower c) "b" = false.
Proof.
  intros c H.
  assert (A : forall c, is_alnum c || (negb (Ascii.eqb (lower c) "x") && negb (Ascii.eqb (lower c) "o")
     && negb (Ascii.eqb (lower c) "b")) = true) by (apply by_chars; vm_compute; reflexivity).
  specialize (A c). rewrite H in A. cbn [orb] in A. apply andb_prop in A. destruct A as [A A3].
  apply andb_prop in A. destruct A as [A1 A2]. repeat split; now apply negb_true_iff.
Qed.

Lemma string_to_int_literal : forall t rest, t <> EmptyString -> ends_number rest ->
  string_to_int (t ++ rest) 0 (String.length t) = read_literal t.
Proof.
  intros t rest Hne Hr. destruct (snoc t Hne) as [u [cl Eu]].
  assert (Hlast : char_at (t ++ rest) (String.length t - 1) = ROk cl).
  { rewrite Eu, app_assoc_s, length_app_s. cbn [String.length append].
    replace (String.length u + 1 - 1)%nat with (String.length u) by lia.
    unfold char_at. now rewrite get_last. }
  assert (Hinit : String.substring 0 (String.length t - 1 - 0) (t ++ rest) = init t).
  { rewrite Eu, init_snoc, app_assoc_s, length_app_s. cbn [String.length].
    replace (String.length u + 1 - 1 - 0)%nat with (String.length u) by lia. apply substring_prefix. }
  assert (Hall : String.substring 0 (String.length t - 0) (t ++ rest) = t).
  { replace (String.length t - 0)%nat with (String.length t) by lia. apply substring_prefix. }
  assert (Hcl : last_char t = cl) by (rewrite Eu; apply last_snoc).
  assert (Suf : (let '(base, stop) :=
      if Ascii.eqb (lower cl) "h" then (16%Z, (String.length t - 1)%nat)
      else if Ascii.eqb (lower cl) "b" then (2%Z, (String.length t - 1)%nat)
      else if Ascii.eqb (lower cl) "o" then (8%Z, (String.length t - 1)%nat)
      else (10, String.length t) in
      convert_digits base 0 (String.substring 0 (stop - 0) (t ++ rest))) = read_suffixed t).
  { unfold read_suffixed. rewrite Hcl.
    destruct (Ascii.eqb (lower cl) "h"); [now rewrite Hinit|].
    destruct (Ascii.eqb (lower cl) "b"); [now rewrite Hinit|].
    destruct (Ascii.eqb (lower cl) "o"); [now rewrite Hinit|]. now rewrite Hall. }
  unfold string_to_int. destruct t as [|c0 t']; [contradiction|].
  rewrite (get_first (String c0 t') rest c0 t' eq_refl). cbn [rbind].
  rewrite Hlast.
  destruct (Ascii.eqb c0 "0") eqn:E0.
  2:{ cbn [rbind]. rewrite Z.eqb_refl. rewrite Suf.
      unfold read_literal. destruct t'; [reflexivity|]. now rewrite E0. }
  destruct t' as [|c1 ds].
  - destruct (stop_char rest Hr) as [c1 [H1 H2]].
    assert (Hc1 : char_at (String c0 "" ++ rest) (0 + 1) = ROk c1).
    { destruct rest as [|x rest]; exact H1. }
    rewrite Hc1. cbn [rbind]. destruct (non_alnum_prefix c1 H2) as [-> [-> ->]]. cbn [andb].
    rewrite Z.eqb_refl. rewrite Suf. reflexivity.
  - assert (Hc1 : char_at (String c0 (String c1 ds) ++ rest) (0 + 1) = ROk c1) by reflexivity.
    rewrite Hc1. cbn [rbind]. unfold read_literal. rewrite E0.
    assert (Hpre : String.substring (0 + 2) (String.length (String c0 (String c1 ds)) - (0 + 2))
                     (String c0 (String c1 ds) ++ rest) = ds).
    { cbn [String.length append String.substring Nat.add].
      replace (S (S (String.length ds)) - 2)%nat with (String.length ds) by lia. apply substring_prefix. }
    rewrite Hcl.
    destruct (Ascii.eqb (lower c1) "x"); [cbn [Z.eqb Pos.eqb]; now rewrite Hpre|].
    destruct (Ascii.eqb (lower c1) "o"); [cbn [Z.eqb Pos.eqb]; now rewrite Hpre|].
    destruct (Ascii.eqb (lower c1) "b" && negb (Ascii.eqb (lower cl) "h")) eqn:Eb;
      [cbn [Z.eqb Pos.eqb]; now rewrite Hpre|].
    rewrite Z.eqb_refl. exact Suf.
Qed.

(** ** Scanning a literal *)

Definition is_e (c : ascii) : bool := Ascii.eqb (lower c) "e".
Definition is_h (c : ascii) : bool := Ascii.eqb (lower c) "h".

Lemma alnum_plain : forall c, is_alnum c = true ->
  Ascii.eqb c "." = false /\ Ascii.eqb c "+" = false /\ Ascii.eqb c "-" = false.
Proof.
  intros c H.
  assert (A : forall c, implb (is_alnum c) (negb (Ascii.eqb c ".") && negb (Ascii.eqb c "+")
     && negb (Ascii.eqb c "-")) = true) by (apply by_chars; vm_compute; reflexivity).
  specialize (A c). rewrite H in A. cbn [implb] in A. apply andb_prop in A. destruct A as [A A3].
  apply andb_prop in A. destruct A as [A1 A2]. repeat split; now apply negb_true_iff.
Qed.

Lemma ends_number_scan : forall rest st, ends_number rest ->
  scan_number rest st = (EmptyString, rest, st).
Proof.
  intros [|c rest] st H; [reflexivity|]. cbn [scan_number]. destruct H as [H1 H2].
  destruct (is_alnum c) eqn:E; [apply letter_or_digit_alnum in E; contradiction|].
  destruct (Ascii.eqb_spec c "."); [contradiction|]. reflexivity.
Qed.

Lemma scan_literal : forall t rest st, all is_alnum t = true -> ends_number rest ->
  n_sign st = false -> n_point st = false ->
  n_hex st = true \/ all (fun c => negb (is_e c)) t = true \/ (t <> EmptyString /\ is_h (last_char t) = true) ->
  exists st', scan_number (t ++ rest) st = (t, rest, st') /\ n_point st' = false /\
    (n_hex st = true -> n_hex st' = true) /\
    (t <> EmptyString -> is_h (last_char t) = true -> n_hex st' = true) /\
    (all (fun c => negb (is_e c)) t = true -> n_exp st' = n_exp st).
Proof.
  induction t as [|c t IH]; intros rest st Hal Hr Hs Hp Hcond.
  - exists st. cbn [append]. rewrite ends_number_scan by assumption. repeat split; auto.
  - cbn [all] in Hal. apply andb_prop in Hal. destruct Hal as [Hc Hal].
    destruct (alnum_plain c Hc) as [Hd _].
    cbn [append scan_number]. rewrite Hc, Hd. cbn [orb]. rewrite Hs. cbn [negb andb].
    fold (is_h c) (is_e c).
    assert (Last : t <> EmptyString -> last_char (String c t) = last_char t) by (destruct t; [contradiction|reflexivity]).
    destruct (is_h c) eqn:Eh; cbn [andb].
    + destruct (IH rest (mkNum true (n_point st) (n_exp st) (n_sign st) (n_valid st)) Hal Hr Hs Hp)
        as [st' [E [F1 [F2 [F3 F4]]]]]; [cbn; auto|].
      rewrite Hs in E. rewrite E. exists st'. split; [reflexivity|]. split; [exact F1|]. split; [intros _; apply F2; reflexivity|].
      split; [intros _ _; apply F2; reflexivity|].
      intros H. cbn [all] in H. apply andb_prop in H. apply F4. apply H.
    + assert (Hcond' : n_hex st = true \/ all (fun c => negb (is_e c)) t = true \/
                       (t <> EmptyString /\ is_h (last_char t) = true)).
      { destruct Hcond as [H|[H|[_ H]]]; [auto|cbn [all] in H; apply andb_prop in H; tauto|].
        destruct t as [|c' t]; [cbn in H; congruence|]. right. right. split; [discriminate|exact H]. }
      assert (Gen : forall st1, n_hex st1 = n_hex st -> n_sign st1 = false -> n_point st1 = false ->
         (negb (is_e c) = true -> n_exp st1 = n_exp st) ->
         exists st', (let '(t0, r', st'') := scan_number (t ++ rest) st1 in (String c t0, r', st''))
            = (String c t, rest, st') /\ n_point st' = false /\
          (n_hex st = true -> n_hex st' = true) /\
          (String c t <> EmptyString -> is_h (last_char (String c t)) = true -> n_hex st' = true) /\
          (all (fun c => negb (is_e c)) (String c t) = true -> n_exp st' = n_exp st)).
      { intros st1 G1 G2 G3 G4.
        destruct (IH rest st1 Hal Hr G2 G3) as [st' [E [F1 [F2 [F3 F4]]]]]; [rewrite G1; exact Hcond'|].
        rewrite E. exists st'. split; [reflexivity|]. split; [exact F1|]. split; [rewrite <- G1; exact F2|].
        split.
        - intros _ H. destruct t as [|c' t]; [cbn in H; congruence|]. apply F3; [discriminate|exact H].
        - intros H. cbn [all] in H. apply andb_prop in H. destruct H as [H1 H2]. rewrite (F4 H2). auto. }
      destruct (is_e c) eqn:Ee; cbn [andb]; [|apply Gen; auto].
      destruct (n_hex st) eqn:Ehex; cbn [negb]; [apply Gen; auto|].
      destruct (n_exp st) eqn:Eexp; [apply Gen; auto; discriminate|].
      assert (Hsafe : exists g r2, (t ++ rest)%string = String g r2 /\ is_alnum g = true).
      { destruct Hcond' as [H|[H|[H1 H2]]]; [discriminate| |].
        - destruct Hcond as [H0|[H0|[_ H0]]]; [discriminate|cbn [all] in H0; rewrite Ee in H0; discriminate|].
          destruct t as [|g t]; [cbn in H0; congruence|]. exists g, (t ++ rest)%string.
          split; [reflexivity|]. cbn [all] in Hal. apply andb_prop in Hal. apply Hal.
        - destruct t as [|g t]; [contradiction|]. exists g, (t ++ rest)%string.
          split; [reflexivity|]. cbn [all] in Hal. apply andb_prop in Hal. apply Hal. }
      destruct Hsafe as [g [r2 [Eg Hg]]]. destruct (alnum_plain g Hg) as [_ [G1 G2]].
      specialize (Gen (mkNum (n_hex st) (n_point st) true false (n_valid st))). cbn in Gen.
      rewrite Ehex in Gen. specialize (Gen eq_refl eq_refl Hp). rewrite Eg in Gen |- *.
      rewrite G1, G2. cbn [orb]. apply Gen. discriminate.
Qed.

Lemma number_digits_alnum : forall base s acc v, number_from base acc s = Some v -> all is_alnum s = true.
Proof.
  intros base. induction s as [|c s IH]; intros acc v H; cbn in *; [reflexivity|].
  destruct (digit_in base c) as [d|] eqn:E; [|discriminate]. unfold digit_in in E.
  destruct (digit c) as [d'|] eqn:E'; [|discriminate]. apply digit_alnum in E'.
  destruct E' as [-> _]. cbn [andb]. eapply IH. exact H.
Qed.

Lemma number_digits_small : forall base s acc v, base <= 10 -> number_from base acc s = Some v ->
  all is_digit s = true.
Proof.
  intros base s. induction s as [|c s IH]; intros acc v Hb H; cbn in *; [reflexivity|].
  destruct (digit_in base c) as [d|] eqn:E; [|discriminate]. unfold digit_in in E.
  destruct (digit c) as [d'|] eqn:E'; [|discriminate].
  destruct (Z.ltb_spec d' base); [|discriminate].
  assert (A : forall c, match digit c with Some d => implb (d <? 10) (is_digit c) | None => true end = true)
    by (apply by_chars; vm_compute; reflexivity).
  specialize (A c). rewrite E' in A. rewrite (proj2 (Z.ltb_lt d' 10)) in A by lia. cbn in A. rewrite A.
  cbn [andb]. eapply IH; [exact Hb|exact H].
Qed.

Lemma digits_no_e : forall s, all is_digit s = true -> all (fun c => negb (is_e c)) s = true.
Proof.
  induction s as [|c s IH]; intros H; cbn in *; [reflexivity|]. apply andb_prop in H. destruct H as [H1 H2].
  assert (A : forall c, implb (is_digit c) (negb (is_e c)) = true) by (apply by_chars; vm_compute; reflexivity).
  specialize (A c). rewrite H1 in A. cbn [implb] in A. rewrite A. now apply IH.
Qed.

Lemma all_last : forall p s, s <> EmptyString -> all p s = true -> p (last_char s) = true.
Proof.
  intros p s Hne H. destruct (snoc s Hne) as [u [c ->]]. rewrite last_snoc. rewrite all_app in H.
  apply andb_prop in H. destruct H as [_ H]. cbn in H. now apply andb_prop in H.
Qed.

Ltac char_fact P c H :=
  let A := fresh "A" in
  assert (A : forall ch, P ch = true) by (apply by_chars; vm_compute; reflexivity);
  specialize (A c); cbv beta in A; try rewrite H in A; cbn [implb andb orb negb] in A.

(** What the literal of a notation looks like to [read_literal]. *)
Lemma read_literal_value : forall t base ds v, literal t base ds -> starts_with_digit t ->
  number_value base ds = Some v -> v <= int64_max -> read_literal t = ROk (Some v).
Proof.
  intros t base ds v Hl Hst Hv Hmax. unfold number_value in Hv.
  assert (Conv : 2 <= base <= 16 -> convert_digits base 0 ds = ROk (Some v))
    by (intros; apply convert_digits_value; auto; lia).
  assert (Suffix : forall c base ds, (digit_in 16 (lower c) = digit_in 16 (lower c)) ->
    convert_digits base 0 ds = ROk (Some v) -> starts_with_digit (ds ++ String c "") ->
    (lower c = "h" /\ base = 16 \/ lower c = "b" /\ base = 2 \/ lower c = "o" /\ base = 8) ->
    number_from base 0 ds = Some v ->
    read_literal (ds ++ String c "") = ROk (Some v)).
  { clear. intros c base ds _ Hc Hst Hk Hn.
    assert (RS : read_suffixed (ds ++ String c "") = ROk (Some v)).
    { unfold read_suffixed. rewrite last_snoc, init_snoc.
      destruct Hk as [[-> ->]|[[-> ->]|[-> ->]]]; exact Hc. }
    unfold read_literal. destruct ds as [|c0 ds]; cbn [append]; [exact RS|].
    destruct ds as [|c1 ds]; cbn [append].
    - (* one digit *)
      cbn [append] in RS. destruct (Ascii.eqb_spec c0 "0") as [->|]; [|exact RS].
      destruct Hk as [[E ->]|[[E ->]|[E ->]]]; rewrite E; cbn -[convert_digits read_suffixed].
      + exact RS.
      + rewrite E. cbn. cbn in Hn. injection Hn as <-. reflexivity.
      + cbn in Hn. injection Hn as <-. reflexivity.
    - cbn [append] in RS.
      destruct (Ascii.eqb_spec c0 "0") as [->|]; [|exact RS].
      assert (Hc1 : exists d, digit_in base c1 = Some d).
      { cbn [number_from] in Hn. destruct (digit_in base "0"); [|discriminate].
        destruct (digit_in base c1) as [d|] eqn:E; [eauto|discriminate]. }
      destruct Hc1 as [d Hd]. unfold digit_in in Hd. destruct (digit c1) as [d'|] eqn:Ed; [|discriminate].
      destruct (Z.ltb_spec d' base); [|discriminate].
      char_fact (fun c => match digit c with Some d => negb (Ascii.eqb (lower c) "x") && negb (Ascii.eqb (lower c) "o")
          && (implb (Ascii.eqb (lower c) "b") (d =? 11)) | None => true end) c1 Ed.
      apply andb_prop in A. destruct A as [A A3]. apply andb_prop in A. destruct A as [A1 A2].
      apply negb_true_iff in A1, A2. rewrite A1, A2.
      destruct (Ascii.eqb (lower c1) "b") eqn:Eb; cbn [andb]; [|exact RS].
      cbn in A3. assert (El : last_char (String "0" (String c1 (ds ++ String c ""))) = c).
      { change (String "0" (String c1 (ds ++ String c ""))) with (String "0" (String c1 ds) ++ String c "")%string.
        apply last_snoc. }
      rewrite El. destruct Hk as [[E ->]|[[E ->]|[E ->]]]; [|lia|lia].
      rewrite E. cbn [negb andb Ascii.eqb Bool.eqb]. exact RS. }
  destruct Hl as [ds|c ds Hc|c ds Hc|c ds Hc|c ds Hc|c ds Hc|c ds Hc]; specialize (Conv ltac:(lia)).
  - (* decimal *)
    destruct ds as [|c0 ds]; [contradiction|].
    assert (Hd : all is_digit (String c0 ds) = true) by (eapply number_digits_small; [|exact Hv]; lia).
    assert (RS : read_suffixed (String c0 ds) = ROk (Some v)).
    { pose proof (all_last is_digit (String c0 ds) ltac:(discriminate) Hd) as Hla.
      unfold read_suffixed.
      char_fact (fun c => implb (is_digit c) (negb (Ascii.eqb (lower c) "h") && negb (Ascii.eqb (lower c) "b")
         && negb (Ascii.eqb (lower c) "o"))) (last_char (String c0 ds)) Hla.
      apply andb_prop in A. destruct A as [A A3]. apply andb_prop in A. destruct A as [A1 A2].
      apply negb_true_iff in A1, A2, A3. rewrite A1, A2, A3. exact Conv. }
    unfold read_literal. destruct ds as [|c1 ds]; [exact RS|].
    destruct (Ascii.eqb c0 "0"); [|exact RS].
    cbn [all] in Hd. apply andb_prop in Hd. destruct Hd as [_ Hd]. apply andb_prop in Hd. destruct Hd as [Hd _].
    char_fact (fun c => implb (is_digit c) (negb (Ascii.eqb (lower c) "x") && negb (Ascii.eqb (lower c) "o")
         && negb (Ascii.eqb (lower c) "b"))) c1 Hd.
    apply andb_prop in A. destruct A as [A A3]. apply andb_prop in A. destruct A as [A1 A2].
    apply negb_true_iff in A1, A2, A3. rewrite A1, A2, A3. exact RS.
  - destruct Hc as [-> | ->]; exact Conv.
  - destruct Hc as [-> | ->]; exact Conv.
  - unfold read_literal.
    assert (Hlast : Ascii.eqb (lower (last_char (String "0" (String c ds)))) "h" = false).
    { destruct ds as [|d0 ds]; [destruct Hc as [-> | ->]; reflexivity|].
      change (last_char (String "0" (String c (String d0 ds)))) with (last_char (String d0 ds)).
      assert (Hd : all is_digit (String d0 ds) = true) by (eapply number_digits_small; [|exact Hv]; lia).
      pose proof (all_last is_digit (String d0 ds) ltac:(discriminate) Hd) as Hla.
      char_fact (fun c => implb (is_digit c) (negb (Ascii.eqb (lower c) "h"))) (last_char (String d0 ds)) Hla.
      now apply negb_true_iff. }
    rewrite Hlast. destruct Hc as [-> | ->]; exact Conv.
  - apply (Suffix c 16); auto. left. destruct Hc as [-> | ->]; auto.
  - apply (Suffix c 8); auto. right. right. destruct Hc as [-> | ->]; auto.
  - apply (Suffix c 2); auto. right. left. destruct Hc as [-> | ->]; auto.
Qed.

Lemma starts_digit : forall s, starts_with_digit s -> exists c r, s = String c r /\ is_digit c = true.
Proof.
  intros [|c r] H; [contradiction|]. exists c, r. split; [reflexivity|]. destruct H as [d H].
  unfold digit_in in H. destruct (digit c) as [d'|] eqn:E; [|discriminate].
  destruct (Z.ltb_spec d' 10); [|discriminate].
  char_fact (fun c => match digit c with Some d => implb (d <? 10) (is_digit c) | None => true end) c E.
  rewrite (proj2 (Z.ltb_lt d' 10)) in A by lia. exact A.
Qed.

Lemma digit_no_operator : forall c r, is_digit c = true -> lex_operator (String c r) = None.
Proof.
  intros c r H. destruct c as [[] [] [] [] [] [] [] []]; try discriminate H; reflexivity.
Qed.

Definition hex_prefix (s : string) : bool :=
  match s with String "0" (String c _) => Ascii.eqb (lower c) "x" | _ => false end.

(** How a literal scans. *)
Lemma literal_scan : forall t base ds v rest, literal t base ds -> starts_with_digit t ->
  number_value base ds = Some v -> ends_number rest ->
  all is_alnum t = true /\
  exists st, scan_number (t ++ rest) (mkNum (hex_prefix (t ++ rest)) false false false true) = (t, rest, st) /\
    n_point st || (n_exp st && negb (n_hex st)) = false.
Proof.
  intros t base ds v rest Hl Hst Hv Hr.
  assert (Hal : all is_alnum t = true).
  { pose proof (number_digits_alnum _ _ _ _ Hv) as Hd.
    destruct Hl as [ds|c ds Hc|c ds Hc|c ds Hc|c ds Hc|c ds Hc|c ds Hc]; [exact Hd| | | | | |];
      try (destruct Hc as [-> | ->]; cbn; exact Hd);
      rewrite all_app, Hd; destruct Hc as [-> | ->]; reflexivity. }
  split; [exact Hal|].
  assert (Fin : hex_prefix (t ++ rest) = true \/ all (fun c => negb (is_e c)) t = true \/
                (t <> EmptyString /\ is_h (last_char t) = true)).
  { destruct Hl as [ds|c ds Hc|c ds Hc|c ds Hc|c ds Hc|c ds Hc|c ds Hc].
    - right. left. apply digits_no_e. eapply number_digits_small; [|exact Hv]. lia.
    - left. destruct Hc as [-> | ->]; reflexivity.
    - right. left. apply number_digits_small in Hv; [|lia]. apply digits_no_e in Hv.
      destruct Hc as [-> | ->]; cbn; exact Hv.
    - right. left. apply number_digits_small in Hv; [|lia]. apply digits_no_e in Hv.
      destruct Hc as [-> | ->]; cbn; exact Hv.
    - right. right. split; [destruct ds; discriminate|]. rewrite last_snoc. destruct Hc as [-> | ->]; reflexivity.
    - right. left. apply number_digits_small in Hv; [|lia]. apply digits_no_e in Hv.
      rewrite all_app, Hv. destruct Hc as [-> | ->]; reflexivity.
    - right. left. apply number_digits_small in Hv; [|lia]. apply digits_no_e in Hv.
      rewrite all_app, Hv. destruct Hc as [-> | ->]; reflexivity. }
  destruct (scan_literal t rest (mkNum (hex_prefix (t ++ rest)) false false false true) Hal Hr eq_refl eq_refl Fin)
    as [st [E [F1 [F2 [F3 F4]]]]].
  exists st. split; [exact E|]. rewrite F1. cbn [orb].
  destruct Fin as [H|[H|[H1 H2]]].
  - rewrite F2 by exact H. apply andb_false_r.
  - rewrite F4 by exact H. reflexivity.
  - rewrite F3 by assumption. apply andb_false_r.
Qed.

Section L.
  Variable strtod : string -> option SpecFloat.spec_float.

  Lemma lex_number_of_digit : forall s c r, s = String c r -> is_digit c = true ->
    lex_token strtod false s = (do x <- lex_number strtod s; let '(t, r') := x in ROk (t, r', false)).
  Proof.
    intros s c r -> H. unfold lex_token. rewrite digit_no_operator by exact H.
    char_fact (fun c => implb (is_digit c) (negb (Ascii.eqb c "'") && negb (Ascii.eqb c dquote))) c H.
    apply andb_prop in A. destruct A as [A1 A2]. apply negb_true_iff in A1, A2. rewrite A1, A2, H. reflexivity.
  Qed.

  Lemma lex_literal : forall t base ds v rest, literal t base ds -> starts_with_digit t ->
    number_value base ds = Some v -> v <= int64_max -> ends_number rest ->
    lex_token strtod false (t ++ rest) = ROk (TInt v, rest, false).
  Proof.
    intros t base ds v rest Hl Hst Hv Hmax Hr.
    destruct (literal_scan t base ds v rest Hl Hst Hv Hr) as [Hal [st [Hs Hf]]].
    destruct (starts_digit t Hst) as [c [r [Et Hc]]].
    rewrite (lex_number_of_digit (t ++ rest) c (r ++ rest)%string) by (subst t; auto).
    unfold lex_number. change (match (t ++ rest)%string with String "0" (String c _) => Ascii.eqb (lower c) "x" | _ => false end)
      with (hex_prefix (t ++ rest)). rewrite Hs, Hf.
    rewrite string_to_int_literal; [|subst t; discriminate|exact Hr].
    rewrite (read_literal_value t base ds v Hl Hst Hv Hmax). reflexivity.
  Qed.

  (** ** The converse: what is read as an integer is a literal with that value *)

  Lemma scan_split : forall s st t rest st', scan_number s st = (t, rest, st') -> s = (t ++ rest)%string.
  Proof.
    intros s. remember (String.length s) as n eqn:En.
    assert (Hn : (String.length s <= n)%nat) by lia. clear En. revert s Hn.
    induction n as [|n IH]; intros [|c s] Hn st t rest st' H; cbn in Hn; try lia;
      cbn [scan_number] in H; try (injection H as <- <- <-; reflexivity).
    assert (R : forall st1 x, (let '(t, r', st'') := scan_number s st1 in (String c t, r', st'')) = x ->
       x = (t, rest, st') -> String c s = (t ++ rest)%string).
    { intros st1 x E ->. destruct (scan_number s st1) as [[t1 r1] st2] eqn:E1. injection E as <- <- <-.
      apply IH in E1; [|lia]. cbn. now rewrite E1. }
    destruct (is_alnum c || Ascii.eqb c "."); [|injection H as <- <- <-; reflexivity].
    destruct (Ascii.eqb c "."); [eapply R; [reflexivity|exact H]|].
    destruct (Ascii.eqb (lower c) "h" && negb (n_sign st)); [eapply R; [reflexivity|exact H]|].
    destruct (Ascii.eqb (lower c) "e" && negb (n_hex st)); [|eapply R; [reflexivity|exact H]].
    destruct (n_exp st); [eapply R; [reflexivity|exact H]|].
    destruct s as [|g s2]; [eapply R; [reflexivity|exact H]|].
    destruct (Ascii.eqb g "+" || Ascii.eqb g "-"); [|eapply R; [reflexivity|exact H]].
    match type of H with (let '(_, _) := scan_number s2 ?S in _) = _ =>
      destruct (scan_number s2 S) as [[t1 r1] st2] eqn:E1 end.
    injection H as <- <- <-. apply IH in E1; [|cbn in Hn; lia]. cbn. now rewrite E1.
  Qed.

  Definition num_inv (st : num_state) : Prop :=
    n_sign st = true -> n_hex st = false /\ n_exp st = true.

  Lemma scan_facts : forall s st t rest st', scan_number s st = (t, rest, st') -> num_inv st ->
    num_inv st' /\ ends_number rest /\
    (n_point st = true -> n_point st' = true) /\ (n_sign st = true -> n_sign st' = true) /\
    (n_point st' = true \/ n_sign st' = true \/ all is_alnum t = true).
  Proof.
    intros s. remember (String.length s) as n eqn:En.
    assert (Hn : (String.length s <= n)%nat) by lia. clear En. revert s Hn.
    induction n as [|n IH]; intros [|c s] Hn st t rest st' H Hi; cbn in Hn; try lia;
      cbn [scan_number] in H; try (injection H as <- <- <-; cbn; tauto).
    assert (R : forall st1, (let '(t, r', st'') := scan_number s st1 in (String c t, r', st'')) = (t, rest, st') ->
       num_inv st1 -> (is_alnum c = true \/ n_point st1 = true) ->
       (n_point st = true -> n_point st1 = true) -> (n_sign st = true -> n_sign st1 = true) ->
       num_inv st' /\ ends_number rest /\
    (n_point st = true -> n_point st' = true) /\ (n_sign st = true -> n_sign st' = true) /\
    (n_point st' = true \/ n_sign st' = true \/ all is_alnum t = true)).
    { intros st1 E I1 Hc Hp Hs. destruct (scan_number s st1) as [[t1 r1] st2] eqn:E1. injection E as <- <- <-.
      apply IH in E1; [|lia|exact I1]. destruct E1 as [F1 [F2 [F3 [F4 F5]]]].
      split; [exact F1|]. split; [exact F2|]. split; [auto|]. split; [auto|].
      destruct F5 as [F5|[F5|F5]]; [auto|auto|]. cbn [all]. rewrite F5.
      destruct Hc as [-> |Hc]; [auto|]. left. apply F3. exact Hc. }
    destruct (is_alnum c || Ascii.eqb c ".") eqn:Ec.
    2:{ injection H as <- <- <-. split; [exact Hi|]. split.
        - cbn. apply orb_false_iff in Ec. destruct Ec as [E1 E2]. split.
          + intros X. apply letter_or_digit_alnum in X. congruence.
          + intros ->. discriminate E2.
        - cbn. tauto. }
    destruct (Ascii.eqb c ".") eqn:Ed.
    { eapply R; [exact H|exact Hi|right; reflexivity|reflexivity|auto]. }
    rewrite orb_false_r in Ec.
    destruct (Ascii.eqb (lower c) "h" && negb (n_sign st)) eqn:Eh.
    { apply andb_prop in Eh. destruct Eh as [_ Eh]. apply negb_true_iff in Eh.
      eapply R; [exact H| |left; exact Ec|auto|auto]. intros X. cbn in X. congruence. }
    destruct (Ascii.eqb (lower c) "e" && negb (n_hex st)) eqn:Ee.
    2:{ eapply R; [exact H|exact Hi|left; exact Ec|auto|auto]. }
    apply andb_prop in Ee. destruct Ee as [_ Ee]. apply negb_true_iff in Ee.
    destruct (n_exp st) eqn:Ex.
    { eapply R; [exact H| |left; exact Ec|auto|auto]. intros _. cbn. auto. }
    assert (Sf : n_sign st = false).
    { destruct (n_sign st) eqn:X; [|reflexivity]. destruct (Hi X). congruence. }
    destruct s as [|g s2].
    { eapply R; [exact H| |left; exact Ec|auto|auto]. intros X. cbn in X. congruence. }
    destruct (Ascii.eqb g "+" || Ascii.eqb g "-").
    2:{ eapply R; [exact H| |left; exact Ec|auto|auto]. intros X. cbn in X. congruence. }
    match type of H with (let '(_, _) := scan_number s2 ?S in _) = _ =>
      destruct (scan_number s2 S) as [[t1 r1] st2] eqn:E1 end.
    injection H as <- <- <-. apply IH in E1; [|cbn in Hn; lia|intros _; cbn; auto].
    destruct E1 as [F1 [F2 [F3 [F4 F5]]]]. cbn in F3, F4.
    split; [exact F1|]. split; [exact F2|]. split; [exact F3|]. split; [intros; auto|]. auto.
  Qed.

  Lemma all_init : forall p t, all p t = true -> all p (init t) = true.
  Proof.
    intros p t H. destruct t as [|c t]; [reflexivity|].
    destruct (snoc (String c t) ltac:(discriminate)) as [u [x E]]. rewrite E in *.
    rewrite init_snoc. rewrite all_app in H. now apply andb_prop in H.
  Qed.

  Lemma lower_is : forall c, (Ascii.eqb (lower c) "x" = true -> c = "x" \/ c = "X") /\
    (Ascii.eqb (lower c) "o" = true -> c = "o" \/ c = "O") /\
    (Ascii.eqb (lower c) "b" = true -> c = "b" \/ c = "B") /\
    (Ascii.eqb (lower c) "h" = true -> c = "h" \/ c = "H").
  Proof.
    intros c. destruct c as [[] [] [] [] [] [] [] []];
      repeat split; intros H; try discriminate H; auto.
  Qed.

  Lemma read_literal_sound : forall t v, t <> EmptyString -> all is_alnum t = true ->
    read_literal t = ROk (Some v) -> exists base ds, literal t base ds /\ number_value base ds = Some v.
  Proof.
    intros t v Hne Hal H. unfold number_value.
    assert (Suf : read_suffixed t = ROk (Some v) ->
      exists base ds, literal t base ds /\ number_from base 0 ds = Some v).
    { clear H. intros H. unfold read_suffixed in H.
      destruct (snoc t Hne) as [u [c E]]. rewrite E in *. rewrite last_snoc, init_snoc in H.
      pose proof (all_init _ _ Hal) as Hi. rewrite init_snoc in Hi.
      destruct (lower_is c) as [_ [Ho [Hb Hh]]].
      destruct (Ascii.eqb (lower c) "h").
      { apply convert_digits_sound in H; [|lia|lia|exact Hi]. exists 16, u. split; [apply lit_h; auto|apply H]. }
      destruct (Ascii.eqb (lower c) "b").
      { apply convert_digits_sound in H; [|lia|lia|exact Hi]. exists 2, u. split; [apply lit_b; auto|apply H]. }
      destruct (Ascii.eqb (lower c) "o").
      { apply convert_digits_sound in H; [|lia|lia|exact Hi]. exists 8, u. split; [apply lit_o; auto|apply H]. }
      apply convert_digits_sound in H; [|lia|lia|exact Hal]. eexists 10, _. split; [apply lit_dec|apply H]. }
    unfold read_literal in H. destruct t as [|c0 [|c1 ds]]; [contradiction|auto|].
    destruct (Ascii.eqb_spec c0 "0") as [->|]; [|auto].
    destruct (lower_is c1) as [Hx [Ho [Hb _]]].
    assert (Hd : all is_alnum ds = true) by (cbn [all] in Hal; apply andb_prop in Hal; destruct Hal as [_ Hal]; now apply andb_prop in Hal).
    destruct (Ascii.eqb (lower c1) "x").
    { apply convert_digits_sound in H; [|lia|lia|exact Hd]. exists 16, ds. split; [apply lit_0x; auto|apply H]. }
    destruct (Ascii.eqb (lower c1) "o").
    { apply convert_digits_sound in H; [|lia|lia|exact Hd]. exists 8, ds. split; [apply lit_0o; auto|apply H]. }
    destruct (Ascii.eqb (lower c1) "b" && negb (Ascii.eqb (lower (last_char (String "0" (String c1 ds)))) "h")) eqn:E; [|auto].
    apply andb_prop in E. destruct E as [E _].
    apply convert_digits_sound in H; [|lia|lia|exact Hd]. exists 2, ds. split; [apply lit_0b; auto|apply H].
  Qed.

  Lemma lex_literal_sound : forall s v rest q, starts_with_digit s ->
    lex_token strtod false s = ROk (TInt v, rest, q) ->
    exists t base ds, s = (t ++ rest)%string /\ literal t base ds /\ number_value base ds = Some v /\
      ends_number rest.
  Proof.
    intros s v rest q Hst H. destruct (starts_digit s Hst) as [c [r [Es Hc]]].
    rewrite (lex_number_of_digit s c r Es Hc) in H. unfold lex_number in H.
    set (h := match s with String "0" (String c _) => Ascii.eqb (lower c) "x" | _ => false end) in H.
    destruct (scan_number s (mkNum h false false false true)) as [[t rest'] st] eqn:Sc.
    pose proof (scan_split _ _ _ _ _ Sc) as Sp.
    destruct (scan_facts _ _ _ _ _ Sc) as [F1 [F2 [_ [_ F5]]]]; [intros X; discriminate X|].
    destruct (n_point st || (n_exp st && negb (n_hex st))) eqn:Ef.
    { destruct (negb (n_valid st)); [discriminate|]. destruct (strtod t); discriminate. }
    apply orb_false_iff in Ef. destruct Ef as [Ep Ee].
    assert (Hal : all is_alnum t = true).
    { destruct F5 as [F5|[F5|F5]]; [congruence| |exact F5].
      destruct (F1 F5) as [G1 G2]. rewrite G1, G2 in Ee. discriminate. }
    assert (Hne : t <> EmptyString).
    { intros ->. cbn in Sp. rewrite Sp in Es. subst rest'. cbn in F2. destruct F2 as [F2 _].
      apply F2. apply letter_or_digit_alnum. unfold is_alnum. rewrite Hc. reflexivity. }
    rewrite Sp in H. rewrite string_to_int_literal in H by assumption.
    destruct (read_literal t) as [[z|]| |] eqn:Rl; cbn in H; try discriminate.
    injection H as <- <- <-.
    destruct (read_literal_sound t z Hne Hal Rl) as [base [ds [L1 L2]]].
    exists t, base, ds. auto.
  Qed.
End L.
