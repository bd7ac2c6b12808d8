(** Generated label names and names of macro labels. *)

Require Import ZArith NArith List String Ascii Bool Lia.
Require Import ZifyBool.
From Verif Require Import LexModel LexProofs SymModel SymSpec SymIface SymProofs.
Import ListNotations.
Local Open Scope char_scope.

(** ** Hexadecimal numbers *)

Definition hex_val (c : ascii) : N :=
  if is_digit c then (N_of_ascii c - 48)%N else (N_of_ascii c - 87)%N.
Fixpoint read_hex (acc : N) (s : string) : N :=
  match s with EmptyString => acc | String c r => read_hex (acc * 16 + hex_val c) r end.

Lemma below_16 : forall P : N -> bool, forallb P (List.map N.of_nat (seq 0 16)) = true ->
  forall n, (n < 16)%N -> P n = true.
Proof.
  intros P H n Hn. rewrite forallb_forall in H. apply H. apply in_map_iff.
  exists (N.to_nat n). split; [lia|]. apply in_seq. lia.
Qed.
Lemma hex_val_digit : forall n, (n < 16)%N -> hex_val (hex_digit n) = n.
Proof.
  intros n Hn. apply N.eqb_eq. revert n Hn. apply below_16. vm_compute. reflexivity.
Qed.
Lemma hex_digit_plain : forall n, (n < 16)%N ->
  lower (hex_digit n) = hex_digit n /\ hex_digit n <> "_".
Proof.
  intros n Hn.
  assert (H : Ascii.eqb (lower (hex_digit n)) (hex_digit n) && negb (Ascii.eqb (hex_digit n) "_") = true).
  { revert n Hn. apply below_16. vm_compute. reflexivity. }
  rewrite andb_true_iff, negb_true_iff, Ascii.eqb_neq, Ascii.eqb_eq in H. exact H.
Qed.

Lemma read_hex_digits : forall fuel n acc, (0 < fuel)%nat -> (n < 16 ^ N.of_nat fuel)%N ->
  read_hex 0 (hex_digits fuel n acc) = read_hex n acc.
Proof.
  induction fuel as [|fuel IH]; intros n acc Hf Hn; [lia|]. cbn [hex_digits].
  assert (Hm : (n mod 16 < 16)%N) by (apply N.mod_lt; lia).
  pose proof (N.div_mod n 16 ltac:(lia)) as Hd.
  destruct (N.eqb_spec (n / 16) 0) as [E|E].
  - cbn [read_hex]. rewrite hex_val_digit by exact Hm. f_equal. lia.
  - assert (Hlt : (n / 16 < 16 ^ N.of_nat fuel)%N).
    { apply N.div_lt_upper_bound; [lia|]. rewrite Nat2N.inj_succ, N.pow_succ_r' in Hn. exact Hn. }
    destruct fuel as [|fuel]; [cbn in Hlt; lia|].
    rewrite IH by (assumption || lia). cbn [read_hex]. rewrite hex_val_digit by exact Hm. f_equal. lia.
Qed.
Lemma read_pad : forall k s, read_hex 0 (pad_zeros k s) = read_hex 0 s.
Proof. induction k; intros s; [reflexivity|]. cbn [pad_zeros read_hex]. apply IHk. Qed.
Lemma read_format : forall n, (n < 2 ^ 64)%N -> read_hex 0 (format_08x n) = n.
Proof.
  intros n Hn. unfold format_08x. rewrite read_pad. apply read_hex_digits; [lia|exact Hn].
Qed.
Lemma format_inj : forall n m, (n < 2 ^ 64)%N -> (m < 2 ^ 64)%N -> format_08x n = format_08x m -> n = m.
Proof. intros n m Hn Hm H. rewrite <- (read_format n Hn), <- (read_format m Hm), H. reflexivity. Qed.

Fixpoint no_char (x : ascii) (s : string) : Prop :=
  match s with EmptyString => True | String c r => c <> x /\ no_char x r end.
Lemma no_char_app : forall x a b, no_char x (a ++ b) <-> no_char x a /\ no_char x b.
Proof. induction a as [|c a IH]; intros b; cbn; [tauto|]. rewrite IH. tauto. Qed.

Definition plain_hex (s : string) : Prop := lower_string s = s /\ no_char "_" s.
Lemma digits_plain : forall fuel n acc, plain_hex acc -> plain_hex (hex_digits fuel n acc).
Proof.
  induction fuel as [|fuel IH]; intros n acc H; [exact H|]. cbn [hex_digits].
  assert (Hm : (n mod 16 < 16)%N) by (apply N.mod_lt; lia).
  destruct (hex_digit_plain _ Hm) as [H1 H2]. destruct H as [H3 H4].
  assert (H : plain_hex (String (hex_digit (n mod 16)) acc)).
  { split; [cbn [lower_string]; congruence|split; assumption]. }
  destruct (n / 16 =? 0)%N; [exact H|apply IH, H].
Qed.
Lemma pad_plain : forall k s, plain_hex s -> plain_hex (pad_zeros k s).
Proof.
  induction k; intros s H; [exact H|]. cbn [pad_zeros]. destruct (IHk s H) as [H1 H2].
  split; [cbn [lower_string]; rewrite H1; reflexivity|split; [discriminate|exact H2]].
Qed.
Lemma format_plain : forall n, plain_hex (format_08x n).
Proof. intros n. apply pad_plain, digits_plain. split; [reflexivity|exact I]. Qed.

(** ** Generated names *)

Lemma lower_string_app : forall a b, lower_string (a ++ b) = (lower_string a ++ lower_string b)%string.
Proof. induction a as [|c a IH]; intros b; [reflexivity|]. cbn. rewrite IH. reflexivity. Qed.
Lemma app_inv_head_s : forall a b c, (a ++ b = a ++ c)%string -> b = c.
Proof. induction a as [|x a IH]; intros b c H; [exact H|]. injection H as H. apply IH, H. Qed.
Lemma app_inv_tail_s : forall c a b, (a ++ c = b ++ c)%string -> a = b.
Proof.
  induction a as [|x a IH]; intros b H.
  - destruct b as [|y b]; [reflexivity|]. apply (f_equal String.length) in H.
    rewrite !length_app_s in H. cbn in H. lia.
  - destruct b as [|y b].
    + apply (f_equal String.length) in H. rewrite !length_app_s in H. cbn in H. lia.
    + injection H as -> H. f_equal. apply IH, H.
Qed.

Lemma unique_lower : forall b n, lower_string (unique_name b n) = unique_name b n.
Proof.
  intros b n. unfold unique_name. rewrite !lower_string_app. destruct (format_plain n) as [-> _].
  destruct b; reflexivity.
Qed.
Lemma unique_inj : forall b b' n n', (n < 2 ^ 64)%N -> (n' < 2 ^ 64)%N ->
  unique_name b n = unique_name b' n' -> n = n'.
Proof.
  intros b b' n n' Hn Hn' H. unfold unique_name in H.
  destruct b, b'; cbn [append] in H; try discriminate H;
  repeat match type of H with String ?c _ = String ?c _ => injection H as H end;
  apply app_inv_tail_s in H; apply format_inj; assumption.
Qed.

Lemma act_unique : forall t a, a <> Clear ->
  t_unique (act t a) = match a with Generate _ => ((t_unique t + 1) mod 2 ^ 64)%N | _ => t_unique t end.
Proof.
  intros t a Ha.
  assert (Hget : forall r, t_unique (fst (get_label t (r_name r) (r_file r) (r_section r))) = t_unique t).
  { intros r. rewrite get_label_eq. destruct (negb _); [reflexivity|]. destruct (lookup t r) as [[|]|]; reflexivity. }
  destruct a as [r|r v|r i|b|]; cbn [act].
  - apply Hget.
  - unfold define_label. pose proof (Hget r) as H. destruct (get_label _ _ _ _) as [t' [i|]]; exact H.
  - rewrite add_equation_eq. destruct (negb _); [reflexivity|]. destruct (lookup t r) as [|]; reflexivity.
  - reflexivity.
  - congruence.
Qed.

Lemma generated_shape : forall h t i a, ~ In Clear h ->
  nth_error (generated_names t h) i = Some a ->
  exists b, a = unique_name b ((t_unique t + N.of_nat i) mod 2 ^ 64) \/
            (i = 0%nat /\ a = unique_name b (t_unique t)).
Proof.
  induction h as [|x h IH]; intros t i a Hc H; [destruct i; discriminate|].
  assert (Hx : x <> Clear) by (intros ->; apply Hc; left; reflexivity).
  assert (Hc' : ~ In Clear h) by (intros Hin; apply Hc; right; exact Hin).
  destruct x as [r|r v|r k|b|]; cbn [generated_names] in H;
    try (destruct (IH _ _ _ Hc' H) as (b' & Hb'); rewrite act_unique in Hb' by discriminate; eauto).
  - destruct i as [|i]; cbn [nth_error] in H.
    + injection H as <-. exists b. right. auto.
    + destruct (IH _ _ _ Hc' H) as (b' & Hb'). exists b'. left.
      rewrite act_unique in Hb' by discriminate.
      destruct Hb' as [-> | [-> ->]].
      * f_equal. rewrite N.add_mod_idemp_l by lia. f_equal. lia.
      * f_equal.
  - congruence.
Qed.

Lemma generated_distinct : forall h i j a b,
  ~ In Clear h -> (N.of_nat (List.length (generated_names empty_table h)) <= 2 ^ 64)%N ->
  nth_error (generated_names empty_table h) i = Some a ->
  nth_error (generated_names empty_table h) j = Some b ->
  i <> j -> ~ same_spelling a b.
Proof.
  intros h i j a b Hc Hlen Ha Hb Hij Hs. apply lower_string_same in Hs.
  assert (Hi : (i < List.length (generated_names empty_table h))%nat) by (apply nth_error_Some; congruence).
  assert (Hj : (j < List.length (generated_names empty_table h))%nat) by (apply nth_error_Some; congruence).
  assert (Hsh : forall k c, (N.of_nat k < 2 ^ 64)%N -> nth_error (generated_names empty_table h) k = Some c ->
    exists bb, c = unique_name bb (N.of_nat k)).
  { intros k c Hk H. destruct (generated_shape _ _ _ _ Hc H) as (bb & [E|[-> E]]); exists bb; rewrite E.
    - f_equal. cbn [t_unique empty_table]. rewrite N.add_0_l. apply N.mod_small, Hk.
    - reflexivity. }
  destruct (Hsh i a ltac:(lia) Ha) as (b1 & ->). destruct (Hsh j b ltac:(lia) Hb) as (b2 & ->).
  rewrite !unique_lower in Hs. apply unique_inj in Hs; lia.
Qed.

(** ** Macro labels *)

Definition plain_macro (m : string) : Prop := no_char "_" m /\ no_char "@" m.

Lemma lower_us : forall c, lower c = "_" <-> c = "_".
Proof.
  intros c.
  assert (H : Bool.eqb (Ascii.eqb (lower c) "_") (Ascii.eqb c "_") = true).
  { revert c. apply by_chars. vm_compute. reflexivity. }
  apply Bool.eqb_prop in H. rewrite <- !Ascii.eqb_eq. rewrite H. tauto.
Qed.
Lemma no_us_lower : forall s, no_char "_" s -> no_char "_" (lower_string s).
Proof. induction s as [|c s IH]; cbn; [tauto|]. rewrite lower_us. tauto. Qed.
Lemma no_at_lower : forall s, no_char "@" s -> no_char "@" (lower_string s).
Proof. induction s as [|c s IH]; cbn; [tauto|]. rewrite lower_at. tauto. Qed.

(** The last and the first underscore determine the parts. *)
Lemma last_us : forall a a' h h', no_char "_" h -> no_char "_" h' ->
  (a ++ String "_" h = a' ++ String "_" h')%string -> a = a' /\ h = h'.
Proof.
  induction a as [|c a IH]; intros a' h h' Hh Hh' E.
  - destruct a' as [|c' a']; cbn in E.
    + injection E as E. auto.
    + injection E as <- E. rewrite E in Hh. apply no_char_app in Hh. destruct Hh as [_ [Hh _]]. exfalso. apply Hh. reflexivity.
  - destruct a' as [|c' a']; cbn in E.
    + injection E as -> E. rewrite <- E in Hh'. apply no_char_app in Hh'. destruct Hh' as [_ [Hh' _]]. exfalso. apply Hh'. reflexivity.
    + injection E as -> E. destruct (IH a' h h' Hh Hh' E) as [-> ->]. auto.
Qed.
Lemma first_us : forall a a' h h', no_char "_" a -> no_char "_" a' ->
  (a ++ String "_" h = a' ++ String "_" h')%string -> a = a' /\ h = h'.
Proof.
  induction a as [|c a IH]; intros a' h h' Hh Hh' E.
  - destruct a' as [|c' a']; cbn in E.
    + injection E as E. auto.
    + injection E as <- E. destruct Hh' as [Hh' _]. congruence.
  - destruct a' as [|c' a']; cbn in E.
    + injection E as -> E. destruct Hh as [Hh _]. congruence.
    + injection E as -> E. destruct Hh as [_ Hh], Hh' as [_ Hh'].
      destruct (IH a' h h' Hh Hh' E) as [-> ->]. auto.
Qed.

Definition at_count (l : string) : nat := match shape_of l with ShGlobal => 0 | ShStatic => 1 | ShLocal => 2 end.
Fixpoint ats (n : nat) : string := match n with O => EmptyString | S n => String "@" (ats n) end.
Definition label_body (l : string) : string :=
  String.substring (at_count l) (String.length l) l.

Lemma substring_all : forall s n, (String.length s <= n)%nat -> String.substring 0 n s = s.
Proof.
  induction s as [|c s IH]; intros n Hn; [destruct n; reflexivity|].
  destruct n as [|n]; [cbn in Hn; lia|]. cbn [substring]. rewrite IH; [reflexivity|cbn in Hn; lia].
Qed.

Lemma macro_label_eq : forall m l c,
  macro_label_name m l c =
  (ats (at_count l) ++ lower_string m ++ String "_" (lower_string (label_body l) ++ String "_" (format_08x c)))%string.
Proof.
  intros m l c. unfold macro_label_name, is_local_symbol, is_static_symbol, label_body, at_count, shape_of, nth_char.
  destruct (format_plain c) as [Hc _].
  destruct l as [|a l]; [cbn [String.length Nat.leb andb String.get]|].
  - cbn [String.eqb]. rewrite !lower_string_app, Hc. reflexivity.
  - cbn [String.length String.get Nat.leb andb]. destruct (Ascii.eqb a "@") eqn:Ea.
    + destruct l as [|b l]; cbn [String.length String.get Nat.leb andb].
      * rewrite !lower_string_app, Hc. reflexivity.
      * destruct (Ascii.eqb b "@") eqn:Eb; rewrite !lower_string_app, Hc; reflexivity.
    + rewrite andb_false_r. cbn [andb]. rewrite substring_all by (cbn; lia).
      rewrite !lower_string_app, Hc. reflexivity.
Qed.

Lemma body_split : forall l, l = (ats (at_count l) ++ label_body l)%string.
Proof.
  intros l. unfold label_body, at_count, shape_of, nth_char.
  destruct l as [|a l]; [reflexivity|]. cbn [String.get].
  destruct (Ascii.eqb a "@") eqn:Ea.
  - apply Ascii.eqb_eq in Ea. subst a. destruct l as [|b l]; [reflexivity|].
    cbn [String.get]. destruct (Ascii.eqb b "@") eqn:Eb.
    + apply Ascii.eqb_eq in Eb. subst b. cbn [ats append String.length substring].
      rewrite substring_all by lia. reflexivity.
    + cbn [ats append String.length substring]. rewrite substring_all by (cbn; lia). reflexivity.
  - cbn [ats append String.length]. rewrite substring_all by (cbn; lia). reflexivity.
Qed.

Fixpoint lead (s : string) : nat :=
  match s with String c r => if Ascii.eqb c "@" then S (lead r) else O | EmptyString => O end.
Lemma lead_ats : forall n s, lead (ats n ++ s) = (n + lead s)%nat.
Proof. induction n; intros s; cbn; [reflexivity|]. rewrite IHn. reflexivity. Qed.
Lemma lead_us : forall m s, lead (m ++ String "_" s) = lead m.
Proof.
  induction m as [|c m IH]; intros s; [reflexivity|]. cbn. destruct (Ascii.eqb c "@"); [|reflexivity].
  f_equal. apply IH.
Qed.
Lemma lead_none : forall m, no_char "@" m -> lead m = 0%nat.
Proof. destruct m as [|c m]; [reflexivity|]. intros [H _]. cbn. apply Ascii.eqb_neq in H. rewrite H. reflexivity. Qed.

Lemma macro_labels_distinct : forall m1 l1 c1 m2 l2 c2,
  (c1 < 2 ^ 64)%N -> (c2 < 2 ^ 64)%N ->
  same_spelling m1 m2 \/ (plain_macro m1 /\ plain_macro m2) ->
  same_spelling (macro_label_name m1 l1 c1) (macro_label_name m2 l2 c2) ->
  same_spelling m1 m2 /\ same_spelling l1 l2 /\ c1 = c2.
Proof.
  intros m1 l1 c1 m2 l2 c2 Hc1 Hc2 Hm H. rewrite <- lower_string_same in H.
  unfold macro_label_name in H at 1.
  assert (Hll : forall s, lower_string (lower_string s) = lower_string s).
  { induction s as [|c s IH]; [reflexivity|]. cbn. rewrite IH. f_equal.
    apply Ascii.eqb_eq. revert c. apply by_chars. vm_compute. reflexivity. }
  rewrite Hll in H. unfold macro_label_name in H. rewrite Hll in H.
  change (macro_label_name m1 l1 c1 = macro_label_name m2 l2 c2) in H.
  rewrite !macro_label_eq in H.
  rewrite <- !lower_string_same. rewrite <- lower_string_same in Hm.
  assert (Hk : at_count l1 = at_count l2).
  { apply (f_equal lead) in H. rewrite !lead_ats, !lead_us in H.
    destruct Hm as [Hm|[[_ Hm1] [_ Hm2]]].
    - rewrite Hm in H. lia.
    - rewrite !(lead_none _ (no_at_lower _ Hm1)), !(lead_none _ (no_at_lower _ Hm2)) in H. lia. }
  rewrite Hk in H. apply app_inv_head_s in H.
  assert (Hb : lower_string m1 = lower_string m2 /\
    (lower_string (label_body l1) ++ String "_" (format_08x c1) =
     lower_string (label_body l2) ++ String "_" (format_08x c2))%string).
  { destruct Hm as [Hm|[[Hm1 _] [Hm2 _]]].
    - rewrite Hm in *. split; [reflexivity|]. apply app_inv_head_s in H. injection H as H. exact H.
    - apply first_us in H; [exact H| |]; apply no_us_lower; assumption. }
  destruct Hb as [HM Hb].
  apply last_us in Hb; [|apply format_plain|apply format_plain]. destruct Hb as [HL HC].
  split; [exact HM|]. split.
  - rewrite (body_split l1), (body_split l2), Hk, !lower_string_app, HL. reflexivity.
  - apply format_inj; assumption.
Qed.
