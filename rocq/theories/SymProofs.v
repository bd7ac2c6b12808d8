(** Proofs about the symbol table. *)

Require Import ZArith List String Ascii Bool Lia.
Require Import ZifyBool.
From Verif Require Import LexModel LexProofs SymModel SymSpec SymIface.
Import ListNotations.
Local Open Scope char_scope.

(** ** Keys *)

Lemma by_two_chars : forall f : ascii -> ascii -> bool,
  forallb (fun a => forallb (f a) all_chars) all_chars = true -> forall a b, f a b = true.
Proof.
  intros f H a b. rewrite forallb_forall in H. specialize (H a (all_chars_in a)).
  rewrite forallb_forall in H. exact (H b (all_chars_in b)).
Qed.

Definition same_letter_b (a b : ascii) : bool :=
  let x := nat_of_ascii a in
  let y := nat_of_ascii b in
  Nat.eqb x y || (Nat.leb 65 x && Nat.leb x 90 && Nat.eqb y (x + 32))
  || (Nat.leb 65 y && Nat.leb y 90 && Nat.eqb x (y + 32)).
Lemma same_letter_b_iff : forall a b, same_letter_b a b = true <-> same_letter a b.
Proof. intros. unfold same_letter_b, same_letter. lia. Qed.

Lemma lower_same : forall a b, lower a = lower b <-> same_letter a b.
Proof.
  intros a b. rewrite <- same_letter_b_iff.
  assert (H : Bool.eqb (Ascii.eqb (lower a) (lower b)) (same_letter_b a b) = true).
  { revert a b. apply by_two_chars. vm_compute. reflexivity. }
  apply Bool.eqb_prop in H. rewrite <- H. symmetry. apply Ascii.eqb_eq.
Qed.

Lemma lower_string_same : forall a b, lower_string a = lower_string b <-> same_spelling a b.
Proof.
  induction a as [|x a IH]; destruct b as [|y b]; cbn [lower_string].
  - split; intros; [constructor|reflexivity].
  - split; [discriminate|intros H; inversion H].
  - split; [discriminate|intros H; inversion H].
  - split.
    + intros H. injection H as H1 H2. constructor; [apply lower_same|apply IH]; assumption.
    + intros H. inversion H; subst. f_equal; [apply lower_same|apply IH]; assumption.
Qed.

Definition ref_key (r : sref) : symkey :=
  let '(f, s) := set_file_section (r_name r) (r_file r) (r_section r) in make_key (r_name r) f s.

Lemma lower_at : forall c, lower c = "@" <-> c = "@".
Proof.
  intros c.
  assert (H : Bool.eqb (Ascii.eqb (lower c) "@") (Ascii.eqb c "@") = true).
  { revert c. apply by_chars. vm_compute. reflexivity. }
  apply Bool.eqb_prop in H. rewrite <- !Ascii.eqb_eq. rewrite H. tauto.
Qed.

Lemma ref_key_scope : forall r, ref_key r =
  mkKey (lower_string (r_name r))
    match scope_of r with Static f => f | _ => (-1)%Z end
    match scope_of r with Local s => s | _ => (-1)%Z end.
Proof.
  intros [n f s]. unfold ref_key, set_file_section, scope_of, nth_char, make_key. cbn [r_name r_file r_section].
  destruct n as [|a n]; [reflexivity|]. cbn [String.get].
  destruct (Ascii.eqb a "@") eqn:E.
  - apply Ascii.eqb_eq in E. subst a. destruct n as [|b n]; [reflexivity|].
    cbn [String.get]. destruct (Ascii.eqb b "@") eqn:E.
    + apply Ascii.eqb_eq in E. subst b. reflexivity.
    + cbn [negb]. destruct b as [[] [] [] [] [] [] [] []]; cbn; try reflexivity; cbn in E; discriminate E.
  - destruct a as [[] [] [] [] [] [] [] []]; cbn; try reflexivity; cbn in E; discriminate E.
Qed.

Inductive shape := ShGlobal | ShStatic | ShLocal.
Definition shape_of (n : string) : shape :=
  if Ascii.eqb (nth_char n 0) "@" then if Ascii.eqb (nth_char n 1) "@" then ShLocal else ShStatic
  else ShGlobal.
Lemma scope_shape : forall r, scope_of r =
  match shape_of (r_name r) with
  | ShGlobal => Global | ShStatic => Static (r_file r) | ShLocal => Local (r_section r) end.
Proof.
  intros [n f s]. unfold scope_of, shape_of, nth_char. cbn [r_name r_file r_section].
  destruct n as [|a n]; [reflexivity|]. cbn [String.get].
  destruct (Ascii.eqb a "@") eqn:E.
  - apply Ascii.eqb_eq in E. subst a. destruct n as [|b n]; [reflexivity|].
    cbn [String.get]. destruct (Ascii.eqb b "@") eqn:E.
    + apply Ascii.eqb_eq in E. subst b. reflexivity.
    + destruct b as [[] [] [] [] [] [] [] []]; cbn; try reflexivity; cbn in E; discriminate E.
  - destruct a as [[] [] [] [] [] [] [] []]; cbn; try reflexivity; cbn in E; discriminate E.
Qed.
Lemma nth_char_lower : forall n i, Ascii.eqb (nth_char (lower_string n) i) "@" = Ascii.eqb (nth_char n i) "@".
Proof.
  induction n as [|a n IH]; intros i; [destruct i; reflexivity|].
  destruct i as [|i]; unfold nth_char; cbn [lower_string String.get].
  - pose proof (lower_at a) as H. rewrite <- !Ascii.eqb_eq in H.
    destruct (Ascii.eqb (lower a) "@"), (Ascii.eqb a "@"); try reflexivity; intuition discriminate.
  - apply IH.
Qed.
Lemma shape_lower : forall n, shape_of (lower_string n) = shape_of n.
Proof. intros. unfold shape_of. rewrite !nth_char_lower. reflexivity. Qed.

Lemma ref_key_same : forall a b, ref_key a = ref_key b <-> same_symbol a b.
Proof.
  intros a b. rewrite !ref_key_scope. unfold same_symbol. rewrite <- lower_string_same. split.
  - intros H. injection H as Hn Hf Hs. split; [exact Hn|].
    rewrite !scope_shape in *.
    assert (Hsh : shape_of (r_name a) = shape_of (r_name b))
      by (rewrite <- (shape_lower (r_name a)), <- (shape_lower (r_name b)), Hn; reflexivity).
    rewrite <- Hsh in *. destruct (shape_of (r_name a)); congruence.
  - intros [Hn Hs]. rewrite Hn, Hs. reflexivity.
Qed.

Lemma key_eqb_eq : forall a b, key_eqb a b = true <-> a = b.
Proof.
  intros [n f s] [n' f' s']. unfold key_eqb. cbn [k_file k_section k_name].
  rewrite !andb_true_iff, !Z.eqb_eq, String.eqb_eq. split.
  - intros [[-> ->] ->]. reflexivity.
  - intros H. injection H as -> -> ->. auto.
Qed.
Lemma key_eqb_refl : forall a, key_eqb a a = true.
Proof. intros. apply key_eqb_eq. reflexivity. Qed.
Lemma key_eqb_neq : forall a b, key_eqb a b = false <-> a <> b.
Proof. intros. rewrite <- key_eqb_eq. destruct (key_eqb a b); intuition congruence. Qed.

Lemma same_symbol_refl : forall a, same_symbol a a.
Proof. intros. apply ref_key_same. reflexivity. Qed.
Lemma same_symbol_dec : forall a b, same_symbol a b \/ ~ same_symbol a b.
Proof.
  intros. destruct (key_eqb (ref_key a) (ref_key b)) eqn:E.
  - left. apply ref_key_same, key_eqb_eq, E.
  - right. rewrite <- ref_key_same. apply key_eqb_neq, E.
Qed.

(** ** Names *)

Definition name_start_b (c : ascii) : bool := is_upper c || is_lower c || Ascii.eqb c "_" || Ascii.eqb c ".".
Lemma name_start_iff : forall c, name_start c <-> name_start_b c = true.
Proof.
  intros c. unfold name_start, name_start_b, is_upper, is_lower, between, code.
  rewrite <- (nat_N_Z (nat_of_ascii c)) || idtac.
  assert (Hz : Z.of_N (N_of_ascii c) = Z.of_nat (nat_of_ascii c)) by (unfold nat_of_ascii; lia).
  rewrite !orb_true_iff, !andb_true_iff, !Z.leb_le, !Ascii.eqb_eq, Hz.
  change (Z.of_N (N_of_ascii "A")) with 65%Z. change (Z.of_N (N_of_ascii "Z")) with 90%Z.
  change (Z.of_N (N_of_ascii "a")) with 97%Z. change (Z.of_N (N_of_ascii "z")) with 122%Z.
  intuition lia.
Qed.
Lemma digit_iff : forall c, 48 <= nat_of_ascii c <= 57 <-> is_digit c = true.
Proof.
  intros c. unfold is_digit, between, code.
  assert (Hz : Z.of_N (N_of_ascii c) = Z.of_nat (nat_of_ascii c)) by (unfold nat_of_ascii; lia).
  rewrite !andb_true_iff, !Z.leb_le, Hz.
  change (Z.of_N (N_of_ascii "0")) with 48%Z. change (Z.of_N (N_of_ascii "9")) with 57%Z. lia.
Qed.
Lemma name_char_iff : forall c, name_char c <-> (symbol_char c = true /\ c <> "000").
Proof.
  intros c. unfold name_char. rewrite name_start_iff, digit_iff.
  assert (H : Bool.eqb (name_start_b c || is_digit c) (symbol_char c && negb (Ascii.eqb c "000")) = true).
  { revert c. apply by_chars. vm_compute. reflexivity. }
  apply Bool.eqb_prop in H. rewrite <- orb_true_iff, H, andb_true_iff, negb_true_iff, Ascii.eqb_neq. tauto.
Qed.

Fixpoint no_nul (s : string) : Prop :=
  match s with EmptyString => True | String c r => c <> "000" /\ no_nul r end.

Lemma name_chars_iff : forall s, name_chars s <-> (all_symbol_chars s = true /\ no_nul s).
Proof.
  induction s as [|c s IH]; cbn [name_chars all_symbol_chars no_nul]; [tauto|].
  rewrite andb_true_iff, IH, name_char_iff. tauto.
Qed.
Lemma start_not_digit : forall c, symbol_char c = true -> c <> "000" ->
  (name_start_b c = negb (is_digit c)).
Proof.
  intros c H1 H2.
  assert (H : (negb (symbol_char c && negb (Ascii.eqb c "000")) || Bool.eqb (name_start_b c) (negb (is_digit c))) = true).
  { revert c H1 H2. intros c _ _. revert c. apply by_chars. vm_compute. reflexivity. }
  rewrite H1 in H. apply Ascii.eqb_neq in H2. rewrite H2 in H. cbn in H. apply Bool.eqb_prop, H.
Qed.
Lemma plain_name_iff : forall s, plain_name s <->
  (s <> EmptyString /\ is_digit (nth_char s 0) = false /\ all_symbol_chars s = true /\ no_nul s).
Proof.
  destruct s as [|c s]; cbn [plain_name]; [intuition congruence|].
  rewrite name_chars_iff. unfold nth_char. cbn [String.get all_symbol_chars no_nul].
  rewrite andb_true_iff, name_start_iff. split.
  - intros (Hs & Ha & Hn).
    assert (Hc : name_char c) by (left; apply name_start_iff; exact Hs).
    apply name_char_iff in Hc. destruct Hc as [Hc Hz].
    rewrite start_not_digit in Hs by assumption. repeat split; auto; try discriminate.
    destruct (is_digit c); [discriminate|reflexivity].
  - intros (_ & Hd & [Hc Ha] & Hz & Hn). rewrite start_not_digit by assumption. rewrite Hd. auto.
Qed.

Lemma at_not_symbol : symbol_char "@" = false.
Proof. reflexivity. Qed.

Definition strip_at (s : string) : string :=
  match s with
  | String "@" (String "@" r) => r
  | String "@" r => r
  | _ => s
  end.
Lemma strip_not_at : forall c r, c <> "@" -> strip_at (String c r) = String c r.
Proof. intros c r H. destruct c as [[] [] [] [] [] [] [] []]; try reflexivity. congruence. Qed.
Lemma strip_one : forall c r, c <> "@" -> strip_at (String "@" (String c r)) = String c r.
Proof. intros c r H. destruct c as [[] [] [] [] [] [] [] []]; try reflexivity. congruence. Qed.
Lemma valid_name_strip : forall s, valid_name s =
  if String.eqb s "" || String.eqb s "@" || String.eqb s "@@" then false
  else negb (is_digit (nth_char (strip_at s) 0)) && all_symbol_chars (strip_at s).
Proof. reflexivity. Qed.

Lemma plain_start : forall c r, plain_name (String c r) -> c <> "@".
Proof.
  intros c r [H _] ->. apply name_start_iff in H. discriminate H.
Qed.
Lemma symbol_name_strip : forall s, symbol_name s <-> plain_name (strip_at s).
Proof.
  intros s. split.
  - intros H. inversion H as [x Hx|x Hx|x Hx]; subst.
    + destruct s as [|c r]; [destruct Hx|]. rewrite strip_not_at; [exact Hx|eapply plain_start, Hx].
    + destruct x as [|c r]; [destruct Hx|]. rewrite strip_one; [exact Hx|eapply plain_start, Hx].
    + exact Hx.
  - destruct s as [|c r]; [intros []|]. destruct (Ascii.eqb c "@") eqn:E.
    + apply Ascii.eqb_eq in E. subst c. destruct r as [|d r]; [intros []|].
      destruct (Ascii.eqb d "@") eqn:E.
      * apply Ascii.eqb_eq in E. subst d. intros H. apply local_name, H.
      * apply Ascii.eqb_neq in E. rewrite strip_one by exact E. intros H. apply static_name, H.
    + apply Ascii.eqb_neq in E. rewrite strip_not_at by exact E. intros H. apply global_name, H.
Qed.
Lemma no_nul_strip : forall s, no_nul s <-> no_nul (strip_at s).
Proof.
  intros s. destruct s as [|c r]; [tauto|]. destruct (Ascii.eqb c "@") eqn:E.
  - apply Ascii.eqb_eq in E. subst c. destruct r as [|d r]; [cbn; intuition discriminate|].
    destruct (Ascii.eqb d "@") eqn:E.
    + apply Ascii.eqb_eq in E. subst d. cbn. intuition discriminate.
    + apply Ascii.eqb_neq in E. rewrite strip_one by exact E. cbn. intuition discriminate.
  - apply Ascii.eqb_neq in E. rewrite strip_not_at by exact E. tauto.
Qed.
Lemma strip_empty : forall s, strip_at s = EmptyString <-> (s = "" \/ s = "@" \/ s = "@@")%string.
Proof.
  intros s. destruct s as [|c r]; [cbn; intuition discriminate|]. destruct (Ascii.eqb c "@") eqn:E.
  - apply Ascii.eqb_eq in E. subst c. destruct r as [|d r]; [cbn; intuition|].
    destruct (Ascii.eqb d "@") eqn:E.
    + apply Ascii.eqb_eq in E. subst d. cbn [strip_at]. split.
      * intros ->. auto.
      * intros [H|[H|H]]; try discriminate. injection H as H. exact H.
    + apply Ascii.eqb_neq in E. rewrite strip_one by exact E. split; [discriminate|].
      intros [H|[H|H]]; try discriminate. injection H as H. congruence.
  - apply Ascii.eqb_neq in E. rewrite strip_not_at by exact E. split; [discriminate|].
    intros [H|[H|H]]; try discriminate; injection H as H; congruence.
Qed.

Lemma valid_name_iff : forall s, symbol_name s <-> (valid_name s = true /\ no_nul s).
Proof.
  intros s. rewrite symbol_name_strip, plain_name_iff, valid_name_strip, (no_nul_strip s), strip_empty.
  destruct (String.eqb_spec s ""); [cbn; intuition discriminate|].
  destruct (String.eqb_spec s "@"); [cbn; intuition discriminate|].
  destruct (String.eqb_spec s "@@"); [cbn; intuition discriminate|].
  cbn [orb]. rewrite andb_true_iff, negb_true_iff. intuition.
Qed.
Lemma symbol_name_valid : forall s, symbol_name s -> valid_name s = true.
Proof. intros s H. apply valid_name_iff in H. apply H. Qed.

(** Validity does not depend on the case. *)
Lemma all_symbol_lower : forall s, all_symbol_chars (lower_string s) = all_symbol_chars s.
Proof.
  induction s as [|c s IH]; [reflexivity|]. cbn [lower_string all_symbol_chars]. rewrite IH. f_equal.
  apply Bool.eqb_prop. revert c. apply by_chars. vm_compute. reflexivity.
Qed.
Lemma strip_lower : forall s, strip_at (lower_string s) = lower_string (strip_at s).
Proof.
  intros s. destruct s as [|c r]; [reflexivity|]. destruct (Ascii.eqb c "@") eqn:E.
  - apply Ascii.eqb_eq in E. subst c. destruct r as [|d r]; [reflexivity|].
    destruct (Ascii.eqb d "@") eqn:E.
    + apply Ascii.eqb_eq in E. subst d. reflexivity.
    + apply Ascii.eqb_neq in E. rewrite strip_one by exact E. cbn [lower_string].
      change (lower "@") with "@". rewrite strip_one; [reflexivity|]. rewrite lower_at. exact E.
  - apply Ascii.eqb_neq in E. rewrite strip_not_at by exact E. cbn [lower_string].
    rewrite strip_not_at; [reflexivity|]. rewrite lower_at. exact E.
Qed.
Lemma lower_empty : forall s, lower_string s = EmptyString <-> s = EmptyString.
Proof. destruct s; cbn; intuition discriminate. Qed.
Lemma digit_nth_lower : forall s i, is_digit (nth_char (lower_string s) i) = is_digit (nth_char s i).
Proof.
  induction s as [|c s IH]; intros i; [destruct i; reflexivity|].
  destruct i; unfold nth_char; cbn [lower_string String.get].
  - apply Bool.eqb_prop. revert c. apply by_chars. vm_compute. reflexivity.
  - apply IH.
Qed.
Lemma valid_name_alt : forall s, valid_name s =
  negb (String.eqb (strip_at s) "") && (negb (is_digit (nth_char (strip_at s) 0)) && all_symbol_chars (strip_at s)).
Proof.
  intros s. rewrite valid_name_strip. pose proof (strip_empty s) as H.
  destruct (String.eqb_spec s ""); [subst; reflexivity|].
  destruct (String.eqb_spec s "@"); [subst; reflexivity|].
  destruct (String.eqb_spec s "@@"); [subst; reflexivity|].
  cbn [orb]. destruct (String.eqb_spec (strip_at s) ""); [|reflexivity]. intuition.
Qed.
Lemma valid_lower : forall s, valid_name (lower_string s) = valid_name s.
Proof.
  intros s. rewrite !valid_name_alt, strip_lower, digit_nth_lower, all_symbol_lower. f_equal. f_equal.
  destruct (strip_at s); reflexivity.
Qed.
Lemma same_symbol_valid : forall a b, same_symbol a b -> valid_name (r_name a) = valid_name (r_name b).
Proof.
  intros a b [H _]. apply lower_string_same in H.
  rewrite <- (valid_lower (r_name a)), <- (valid_lower (r_name b)), H. reflexivity.
Qed.

(** ** The table *)

Definition lookup (t : table) (r : sref) : option syminfo := find_key (ref_key r) (t_symbols t).

Lemma get_label_eq : forall t r,
  get_label t (r_name r) (r_file r) (r_section r) =
  if negb (valid_name (r_name r)) then (t, None)
  else match lookup t r with
       | None =>
          (mkTable ((ref_key r, SLabel (List.length (t_labels t))) :: t_symbols t)
             (t_labels t ++ [new_label (r_name r)
                (let s := snd (set_file_section (r_name r) (r_file r) (r_section r)) in
                 if Z.eqb s (r_section r) then s else (r_section r + 1)%Z)])
             (t_equations t) (t_unique t) (t_generated t), Some (List.length (t_labels t)))
       | Some (SLabel i) => (t, Some i)
       | Some (SEqu _) => (t, None)
       end.
Proof.
  intros. unfold get_label, lookup, ref_key.
  destruct (set_file_section (r_name r) (r_file r) (r_section r)) as [f s]. reflexivity.
Qed.
Lemma symbol_exists_eq : forall t r,
  symbol_exists t (r_name r) (r_file r) (r_section r) =
  valid_name (r_name r) && match lookup t r with Some _ => true | None => false end.
Proof.
  intros. unfold symbol_exists, lookup, ref_key.
  destruct (set_file_section (r_name r) (r_file r) (r_section r)) as [f s].
  destruct (valid_name (r_name r)); reflexivity.
Qed.
Lemma add_equation_eq : forall t r i,
  add_equation t (r_name r) (r_file r) (r_section r) i =
  if negb (valid_name (r_name r)) then (t, false)
  else match lookup t r with
       | Some _ => (t, false)
       | None => (mkTable ((ref_key r, SEqu i) :: t_symbols t) (t_labels t)
             (S (t_equations t)) (t_unique t) (t_generated t), true)
       end.
Proof.
  intros. unfold add_equation. rewrite symbol_exists_eq. unfold lookup, ref_key.
  destruct (set_file_section (r_name r) (r_file r) (r_section r)) as [f s].
  destruct (valid_name (r_name r)); [cbn [negb andb]|reflexivity].
  destruct (find_key _ _); reflexivity.
Qed.
Lemma find_equation_eq : forall t r,
  find_equation t (r_name r) (r_file r) (r_section r) =
  match lookup t r with Some (SEqu i) => Some i | _ => None end.
Proof.
  intros. unfold find_equation, lookup, ref_key.
  destruct (set_file_section (r_name r) (r_file r) (r_section r)) as [f s]. reflexivity.
Qed.

(** Distinct keys have distinct label objects, and all objects exist. *)
Definition table_ok (t : table) : Prop :=
  (forall k i, find_key k (t_symbols t) = Some (SLabel i) -> i < List.length (t_labels t)) /\
  (forall k k' i, find_key k (t_symbols t) = Some (SLabel i) ->
                  find_key k' (t_symbols t) = Some (SLabel i) -> k = k').

Lemma empty_ok : table_ok empty_table.
Proof. split; intros; cbn in *; discriminate. Qed.
Lemma clear_ok : forall t, table_ok (clear t).
Proof. split; intros; cbn in *; discriminate. Qed.

Lemma add_label_ok : forall t k l e u g, table_ok t -> find_key k (t_symbols t) = None ->
  table_ok (mkTable ((k, SLabel (List.length (t_labels t))) :: t_symbols t) (t_labels t ++ [l]) e u g).
Proof.
  intros t k l e u g [H1 H2] Hk. split; cbn [t_symbols t_labels find_key]; rewrite ?app_length; cbn [List.length].
  - intros k' i. destruct (key_eqb k' k); intros H; [injection H as <-; lia|apply H1 in H; lia].
  - intros k1 k2 i Ha Hb. destruct (key_eqb k1 k) eqn:E1; destruct (key_eqb k2 k) eqn:E2.
    + apply key_eqb_eq in E1, E2. congruence.
    + injection Ha as <-. apply H1 in Hb. lia.
    + injection Hb as <-. apply H1 in Ha. lia.
    + eapply H2; eassumption.
Qed.
Lemma add_equ_ok : forall t k i e u g, table_ok t -> find_key k (t_symbols t) = None ->
  table_ok (mkTable ((k, SEqu i) :: t_symbols t) (t_labels t) e u g).
Proof.
  intros t k j e u g [H1 H2] Hk. split; cbn [t_symbols t_labels find_key].
  - intros k' i. destruct (key_eqb k' k); intros H; [discriminate|apply H1 in H; lia].
  - intros k1 k2 i Ha Hb. destruct (key_eqb k1 k) eqn:E1; destruct (key_eqb k2 k) eqn:E2; try discriminate.
    eapply H2; eassumption.
Qed.
Lemma update_length : forall A i (f : A -> A) l, List.length (update i f l) = List.length l.
Proof. induction i; destruct l; cbn; auto. Qed.
Lemma nth_update_same : forall A i (f : A -> A) l x, nth_error l i = Some x -> nth_error (update i f l) i = Some (f x).
Proof. induction i; destruct l; cbn; intros; try discriminate; [congruence|auto]. Qed.
Lemma nth_update_other : forall A i j (f : A -> A) l, i <> j -> nth_error (update i f l) j = nth_error l j.
Proof.
  induction i; destruct l; intros; cbn [update]; try reflexivity.
  - destruct j; [congruence|reflexivity].
  - destruct j; [reflexivity|]. cbn. apply IHi. congruence.
Qed.
Lemma update_ok : forall t i f e u g, table_ok t ->
  table_ok (mkTable (t_symbols t) (update i f (t_labels t)) e u g).
Proof.
  intros t i f e u g [H1 H2]. split; cbn [t_symbols t_labels]; [rewrite update_length; exact H1|exact H2].
Qed.

Lemma get_label_ok : forall t r, table_ok t ->
  table_ok (fst (get_label t (r_name r) (r_file r) (r_section r))).
Proof.
  intros t r H. rewrite get_label_eq. destruct (valid_name (r_name r)); [|exact H]. cbn [negb].
  unfold lookup. destruct (find_key (ref_key r) (t_symbols t)) as [[i|i]|] eqn:E; try exact H.
  apply add_label_ok; assumption.
Qed.
Lemma act_ok : forall t a, table_ok t -> table_ok (act t a).
Proof.
  intros t a H. destruct a as [r|r v|r i|b|]; cbn [act].
  - apply get_label_ok, H.
  - unfold define_label. pose proof (get_label_ok t r H) as H'.
    destruct (get_label t (r_name r) (r_file r) (r_section r)) as [t' [i|]]; [|exact H'].
    apply update_ok, H'.
  - rewrite add_equation_eq. destruct (valid_name (r_name r)); [|exact H]. cbn [negb].
    unfold lookup. destruct (find_key (ref_key r) (t_symbols t)) eqn:E; try exact H.
    apply add_equ_ok; assumption.
  - exact H.
  - apply clear_ok.
Qed.
Lemma run_ok : forall h t, table_ok t -> table_ok (run_actions t h).
Proof.
  induction h as [|a h IH]; intros t H; [exact H|]. cbn. apply IH, act_ok, H.
Qed.

(** What the table holds for a reference. *)
Definition holds (t : table) (r : sref) (s : symstate) : Prop :=
  match s with
  | Unknown => lookup t r = None
  | IsLabel v d => exists i l, lookup t r = Some (SLabel i) /\ nth_error (t_labels t) i = Some l
                               /\ l_value l = v /\ l_defined l = d
  | IsEqu i => lookup t r = Some (SEqu i)
  end.

Lemma holds_shows : forall t r s, valid_name (r_name r) = true -> holds t r s -> shows t r s.
Proof.
  intros t r s Hv H. unfold shows, read_label. rewrite symbol_exists_eq, find_equation_eq, get_label_eq, Hv.
  cbn [negb andb].
  destruct s as [|v d|i]; cbn [holds] in H.
  - rewrite H. repeat split. cbn [t_labels]. rewrite nth_error_app2 by lia. rewrite Nat.sub_diag. reflexivity.
  - destruct H as (i & l & -> & Hl & <- & <-). repeat split. rewrite Hl. reflexivity.
  - rewrite H. repeat split.
Qed.

Lemma holds_det_step : forall t r s a, table_ok t -> valid_name (r_name r) = true -> holds t r s ->
  exists s', sym_step r s a s' /\ holds (act t a) r s'.
Proof.
  intros t r s a Hok Hv H.
  assert (Hother : forall r', ~ same_symbol r r' -> key_eqb (ref_key r) (ref_key r') = false).
  { intros r' Hn. apply key_eqb_neq. rewrite ref_key_same. exact Hn. }
  assert (Hsame : forall r', same_symbol r r' -> lookup t r' = lookup t r /\ key_eqb (ref_key r) (ref_key r') = true
            /\ valid_name (r_name r') = true).
  { intros r' Hs. rewrite <- (same_symbol_valid _ _ Hs). unfold lookup.
    apply ref_key_same in Hs. rewrite Hs. rewrite key_eqb_refl. auto. }
  destruct a as [r'|r' v|r' j|b|]; cbn [act].
  - (* Reference *)
    destruct (same_symbol_dec r r') as [Hs|Hn].
    + destruct (Hsame r' Hs) as (Hl & Hk & Hv'). rewrite get_label_eq, Hv', Hl. cbn [negb].
      destruct s as [|v d|i]; cbn [holds] in H.
      * rewrite H. exists (IsLabel 0 false). split; [constructor; exact Hs|].
        exists (List.length (t_labels t)), (new_label (r_name r')
          (let s := snd (set_file_section (r_name r') (r_file r') (r_section r')) in
                 if Z.eqb s (r_section r') then s else (r_section r' + 1)%Z)).
        unfold lookup. cbn [fst t_symbols t_labels find_key]. rewrite Hk.
        rewrite nth_error_app2, Nat.sub_diag by lia. repeat split.
      * destruct H as (i & l & Hi & H). exists (IsLabel v d). split; [apply step_ref; [exact Hs|discriminate]|].
        rewrite Hi. exists i, l. auto.
      * rewrite H. exists (IsEqu i). split; [apply step_ref; [exact Hs|discriminate]|]. exact H.
    + exists s. split; [eapply step_other; [left; reflexivity|exact Hn]|].
      rewrite get_label_eq. destruct (valid_name (r_name r')); [|exact H]. cbn [negb].
      destruct (lookup t r') as [[i|i]|] eqn:E; try exact H.
      destruct s as [|v d|i]; cbn [holds] in *; unfold lookup in *; cbn [fst t_symbols t_labels find_key];
        rewrite (Hother _ Hn).
      * exact H.
      * destruct H as (i & l & Hi & Hl & Hrest). exists i, l. split; [exact Hi|]. split; [|exact Hrest].
        rewrite nth_error_app1; [exact Hl|]. apply nth_error_Some. congruence.
      * exact H.
  - (* Define *)
    unfold define_label. rewrite get_label_eq.
    destruct (same_symbol_dec r r') as [Hs|Hn].
    + destruct (Hsame r' Hs) as (Hl & Hk & Hv'). rewrite Hv', Hl. cbn [negb].
      destruct s as [|v0 d|i]; cbn [holds] in H.
      * rewrite H. exists (IsLabel v true). split; [constructor; exact Hs|]. cbn [fst].
        eexists (List.length (t_labels t)), _. unfold lookup. cbn [t_symbols t_labels find_key]. rewrite Hk.
        split; [reflexivity|]. split.
        { apply nth_update_same. rewrite nth_error_app2, Nat.sub_diag by lia. reflexivity. }
        split; reflexivity.
      * destruct H as (i & l & Hi & Hl' & H). exists (IsLabel v true). split; [constructor; exact Hs|].
        rewrite Hi. cbn [fst]. exists i, (assign v l). split; [exact Hi|]. cbn [t_labels].
        split; [apply nth_update_same, Hl'|]. split; reflexivity.
      * rewrite H. exists (IsEqu i). split; [constructor; exact Hs|]. exact H.
    + exists s. split; [eapply step_other; [right; left; exists v; reflexivity|exact Hn]|].
      destruct (valid_name (r_name r')); [|exact H]. cbn [negb].
      destruct (lookup t r') as [[i|i]|] eqn:E; try exact H.
      * cbn [fst]. destruct s as [|v0 d|i0]; cbn [holds] in *; try exact H.
        destruct H as (i' & l & Hi & Hl & Hrest). exists i', l. split; [exact Hi|]. split; [|exact Hrest].
        cbn [t_labels]. rewrite nth_update_other; [exact Hl|]. intros ->.
        apply Hn, ref_key_same. destruct Hok as [_ Hok]. eapply Hok; [exact Hi|exact E].
      * cbn [fst]. destruct s as [|v0 d|i0]; cbn [holds] in *; unfold lookup in *;
          cbn [t_symbols t_labels find_key]; rewrite (Hother _ Hn).
        -- exact H.
        -- destruct H as (i & l & Hi & Hl & Hrest). exists i, l. split; [exact Hi|]. split; [|exact Hrest].
           assert (Hlt : i < List.length (t_labels t)) by (apply nth_error_Some; congruence).
           rewrite nth_update_other by lia. rewrite nth_error_app1 by exact Hlt. exact Hl.
        -- exact H.
  - (* DefineEqu *)
    rewrite add_equation_eq.
    destruct (same_symbol_dec r r') as [Hs|Hn].
    + destruct (Hsame r' Hs) as (Hl & Hk & Hv'). rewrite Hv', Hl. cbn [negb].
      destruct s as [|v0 d|i]; cbn [holds] in H.
      * rewrite H. exists (IsEqu j). split; [constructor; exact Hs|]. cbn [fst holds]. unfold lookup.
        cbn [t_symbols find_key]. rewrite Hk. reflexivity.
      * exists (IsLabel v0 d). split; [apply step_equ; [exact Hs|discriminate]|].
        pose proof H as (i & l & Hi & _). rewrite Hi. exact H.
      * exists (IsEqu i). split; [apply step_equ; [exact Hs|discriminate]|]. rewrite H. exact H.
    + exists s. split; [eapply step_other; [right; right; exists j; reflexivity|exact Hn]|].
      destruct (valid_name (r_name r')); [|exact H]. cbn [negb].
      destruct (lookup t r') as [x|] eqn:E; try exact H.
      destruct s as [|v0 d|i0]; cbn [holds fst] in *; unfold lookup in *;
          cbn [t_symbols t_labels find_key]; rewrite (Hother _ Hn); exact H.
  - exists s. split; [constructor|]. destruct s; exact H.
  - exists Unknown. split; [constructor|]. reflexivity.
Qed.

Lemma sym_step_det : forall r s a s1 s2, sym_step r s a s1 -> sym_step r s a s2 -> s1 = s2.
Proof.
  intros r s a s1 s2 H1 H2.
  inversion H1; subst; inversion H2; subst; try reflexivity; try congruence;
  repeat match goal with
  | H : _ \/ _ |- _ => destruct H
  | H : exists _, _ |- _ => destruct H
  end; try congruence.
Qed.
Lemma sym_history_inv : forall r h a s, sym_history r (h ++ [a]) s ->
  exists s0, sym_history r h s0 /\ sym_step r s0 a s.
Proof.
  intros r h a s H. inversion H as [E|h' a' s0 s' H1 H2 E]; [destruct h; discriminate|].
  apply app_inj_tail in E. destruct E as [-> ->]. subst. eauto.
Qed.
Lemma sym_history_det : forall r h s1 s2, sym_history r h s1 -> sym_history r h s2 -> s1 = s2.
Proof.
  intros r h. induction h as [|a h IH] using rev_ind; intros s1 s2 H1 H2.
  - inversion H1; [|destruct h; discriminate]. inversion H2; [reflexivity|destruct h; discriminate].
  - apply sym_history_inv in H1, H2. destruct H1 as (a1 & H1 & H1'), H2 as (a2 & H2 & H2').
    rewrite (IH _ _ H1 H2) in H1'. eapply sym_step_det; eassumption.
Qed.

Lemma run_snoc : forall t h a, run_actions t (h ++ [a]) = act (run_actions t h) a.
Proof. intros. unfold run_actions. rewrite fold_left_app. reflexivity. Qed.

Lemma history_holds : forall r h, valid_name (r_name r) = true ->
  exists s, sym_history r h s /\ holds (run_actions empty_table h) r s.
Proof.
  intros r h Hv. induction h as [|a h IH] using rev_ind.
  - exists Unknown. split; [constructor|reflexivity].
  - destruct IH as (s & Hh & Hs). rewrite run_snoc.
    destruct (holds_det_step _ r s a (run_ok h _ empty_ok) Hv Hs) as (s' & Hs' & Ht).
    exists s'. split; [eapply history_snoc; eassumption|exact Ht].
Qed.

Lemma scoping : forall h r, symbol_name (r_name r) ->
  (exists s, sym_history r h s) /\
  (forall s, sym_history r h s -> shows (run_actions empty_table h) r s).
Proof.
  intros h r Hn. apply symbol_name_valid in Hn. destruct (history_holds r h Hn) as (s & Hh & Hs).
  split; [eauto|]. intros s' Hh'. rewrite (sym_history_det _ _ _ _ Hh' Hh). apply holds_shows; assumption.
Qed.

(** Two mentions of a name that is not a symbol name never find anything. *)
Lemma invalid_names : forall t r, valid_name (r_name r) = false ->
  symbol_exists t (r_name r) (r_file r) (r_section r) = false /\ read_label t r = None
  /\ act t (Reference r) = t /\ (forall v, act t (Define r v) = t) /\ (forall i, act t (DefineEqu r i) = t).
Proof.
  intros t r H. unfold read_label, act, define_label.
  rewrite symbol_exists_eq, get_label_eq, H. repeat split.
  intros i. rewrite add_equation_eq, H. reflexivity.
Qed.

(** ** Object identity *)

Definition keeps (t t' : table) : Prop :=
  forall r i, lookup t r = Some i -> lookup t' r = Some i.
Lemma act_keeps : forall t a, a <> Clear -> keeps t (act t a).
Proof.
  intros t a Ha r x H.
  assert (Hne : forall r', lookup t r' = None -> key_eqb (ref_key r) (ref_key r') = false).
  { intros r' Hn. apply key_eqb_neq. intros E. unfold lookup in *. congruence. }
  assert (Hget : forall r', lookup (fst (get_label t (r_name r') (r_file r') (r_section r'))) r = Some x).
  { intros r'. rewrite get_label_eq. destruct (valid_name (r_name r')); [|exact H]. cbn [negb].
    destruct (lookup t r') as [[i|i]|] eqn:E; try exact H.
    unfold lookup. cbn [fst t_symbols find_key]. rewrite (Hne _ E). exact H. }
  destruct a as [r'|r' v|r' i|b|]; cbn [act].
  - apply Hget.
  - unfold define_label. pose proof (Hget r') as H'.
    destruct (get_label t (r_name r') (r_file r') (r_section r')) as [t' [i|]]; exact H'.
  - rewrite add_equation_eq. destruct (valid_name (r_name r')); [|exact H]. cbn [negb].
    destruct (lookup t r') as [y|] eqn:E; try exact H.
    unfold lookup. cbn [fst t_symbols find_key]. rewrite (Hne _ E). exact H.
  - exact H.
  - congruence.
Qed.
Lemma run_keeps : forall h t, ~ In Clear h -> keeps t (run_actions t h).
Proof.
  induction h as [|a h IH]; intros t Hc r x H; [exact H|].
  cbn. apply IH; [firstorder|]. apply act_keeps; [|exact H]. intros ->. apply Hc. left. reflexivity.
Qed.

Lemma object_found : forall t r i, object t r = Some i ->
  lookup (act t (Reference r)) r = Some (SLabel i).
Proof.
  intros t r i. unfold object. cbn [act]. rewrite get_label_eq.
  destruct (valid_name (r_name r)); [|discriminate]. cbn [negb].
  destruct (lookup t r) as [[j|j]|] eqn:E; cbn [snd fst]; intros H; try discriminate.
  - congruence.
  - unfold lookup. cbn [t_symbols find_key]. rewrite key_eqb_refl. congruence.
Qed.

Lemma object_identity : forall h1 h2 r1 r2 i j,
  let t1 := run_actions empty_table h1 in
  let t2 := run_actions (act t1 (Reference r1)) h2 in
  ~ In Clear h2 -> object t1 r1 = Some i -> object t2 r2 = Some j ->
  (i = j <-> same_symbol r1 r2).
Proof.
  intros h1 h2 r1 r2 i j t1 t2 Hc Hi Hj.
  apply object_found in Hi. apply (run_keeps h2 _ Hc) in Hi. fold t2 in Hi.
  apply (act_keeps t2 (Reference r2)) in Hi; [|discriminate].
  apply object_found in Hj.
  assert (Hok : table_ok (act t2 (Reference r2))).
  { apply act_ok. unfold t2. apply run_ok, act_ok, run_ok, empty_ok. }
  rewrite <- ref_key_same. split.
  - intros ->. destruct Hok as [_ Hok]. eapply Hok; eassumption.
  - intros E. unfold lookup in *. rewrite E in Hi. congruence.
Qed.

(** addLabels is a sequence of definitions. *)
Lemma add_labels_actions : forall defs t file section, exists h,
  ~ In Clear h /\ fst (add_labels t file section defs) = run_actions t h.
Proof.
  induction defs as [|[n v] defs IH]; intros t file section.
  - exists []. split; [auto|reflexivity].
  - cbn [add_labels]. destruct (valid_name n); cbn [negb]; [|apply IH].
    destruct (define_label t n file section v) as [t' o] eqn:E.
    assert (Hd : act t (Define (mkRef n file section) v) = t') by (cbn [act r_name r_file r_section]; rewrite E; reflexivity).
    destruct o as [i|].
    + destruct (IH t' file (if is_local_symbol n then section else section + 1)%Z) as (h & Hc & Hh).
      exists (Define (mkRef n file section) v :: h). split; [intros [H|H]; [discriminate|auto]|].
      rewrite Hh. cbn. rewrite <- Hd. reflexivity.
    + destruct (IH t' file section) as (h & Hc & Hh).
      exists (Define (mkRef n file section) v :: h). split; [intros [H|H]; [discriminate|auto]|].
      rewrite Hh. cbn. rewrite <- Hd. reflexivity.
Qed.

(** ** Labels and equs exclude each other *)

Lemma label_or_equ : forall t r,
  (object t r <> None -> find_equation t (r_name r) (r_file r) (r_section r) = None) /\
  (find_equation t (r_name r) (r_file r) (r_section r) <> None -> object t r = None).
Proof.
  intros t r. unfold object. rewrite get_label_eq, find_equation_eq.
  destruct (valid_name (r_name r)); cbn [negb snd].
  - destruct (lookup t r) as [[i|i]|]; cbn; intuition congruence.
  - intuition congruence.
Qed.

Lemma label_never_equ : forall h1 h2 r r' i,
  ~ In Clear h2 -> same_symbol r r' ->
  let t1 := run_actions empty_table h1 in
  (object t1 r = Some i ->
   forall k, find_equation (run_actions t1 (Reference r :: h2)) (r_name r') (r_file r') (r_section r') <> Some k) /\
  (find_equation t1 (r_name r) (r_file r) (r_section r) = Some i ->
   find_equation (run_actions t1 h2) (r_name r') (r_file r') (r_section r') = Some i
   /\ object (run_actions t1 h2) r' = None).
Proof.
  intros h1 h2 r r' i Hc Hs t1. apply ref_key_same in Hs. split.
  - intros Ho k. apply object_found in Ho.
    pose proof (run_keeps h2 (act t1 (Reference r)) Hc r _ Ho) as H.
    cbn [run_actions fold_left]. rewrite find_equation_eq. unfold lookup in *. rewrite <- Hs.
    unfold run_actions in H. rewrite H. discriminate.
  - rewrite find_equation_eq. intros H. destruct (lookup t1 r) as [[j|j]|] eqn:E; try discriminate.
    injection H as ->. pose proof (run_keeps h2 t1 Hc r _ E) as H.
    assert (Hf : find_equation (run_actions t1 h2) (r_name r') (r_file r') (r_section r') = Some i).
    { rewrite find_equation_eq. unfold lookup in *. rewrite <- Hs, H. reflexivity. }
    split; [exact Hf|]. apply label_or_equ. rewrite Hf. discriminate.
Qed.
