(** Proofs about the directive table and the directives of one line. *)

Require Import ZArith String Ascii List Bool Lia Permutation.
From Verif Require Import Ints ExprModel LexModel SymModel DataModel DirModel DirSpec.
Import ListNotations.
Local Open Scope string_scope.
Local Open Scope list_scope.
Local Open Scope Z_scope.

(** ** The table *)
(** Whether two different rows have one name in a mode: every row against those after it *)
Fixpoint rows_once (t : list dentry) : bool :=
  match t with
  | [] => true
  | e :: r => forallb (fun f => negb (String.eqb (d_name e) (d_name f)) ||
                forallb (fun nm => negb (applies (fst nm) (snd nm) e && applies (fst nm) (snd nm) f)) [(false,false); (false,true); (true,false); (true,true)]) r
              && rows_once r
  end.
Lemma rows_once_true : rows_once directives = true.
Proof. vm_compute. reflexivity. Qed.
Lemma once_of t nocash memory : rows_once t = true -> forall e f, In e t -> In f t -> d_name e = d_name f ->
  applies nocash memory e = true -> applies nocash memory f = true -> e = f.
Proof.
  induction t as [|x t IH]; intros R e f [] If N Ae Af.
  - subst x. destruct If as [<-|If]; [reflexivity|]. exfalso. cbn [rows_once] in R. apply andb_true_iff in R as (R & _).
    rewrite forallb_forall in R. specialize (R _ If). rewrite N, String.eqb_refl in R. cbn [negb orb] in R.
    rewrite forallb_forall in R. specialize (R (nocash, memory)). cbn [fst snd] in R. rewrite Ae, Af in R.
    discriminate R. destruct nocash, memory; cbn; tauto.
  - cbn [rows_once] in R. apply andb_true_iff in R as (R & R'). destruct If as [<-|If].
    + exfalso. rewrite forallb_forall in R. specialize (R _ H). rewrite N, String.eqb_refl in R. cbn [negb orb] in R.
      rewrite forallb_forall in R. specialize (R (nocash, memory)). cbn [fst snd] in R. rewrite Ae, Af in R.
      discriminate R. destruct nocash, memory; cbn; tauto.
    + exact (IH R' e f H If N Ae Af).
Qed.
Lemma table_once nocash memory e f : In e directives -> In f directives -> d_name e = d_name f ->
  applies nocash memory e = true -> applies nocash memory f = true -> e = f.
Proof. apply once_of. exact rows_once_true. Qed.

Lemma lookup_some t nocash memory name e : lookup t nocash memory name = Some e ->
  In e t /\ d_name e = name /\ applies nocash memory e = true.
Proof.
  unfold lookup. intros F. apply find_some in F as (I & F). apply andb_true_iff in F as (N & A).
  apply String.eqb_eq in N. tauto.
Qed.
Lemma lookup_none t nocash memory name : lookup t nocash memory name = None ->
  forall e, In e t -> d_name e = name -> applies nocash memory e = false.
Proof.
  unfold lookup. intros F e I N. pose proof (find_none _ _ F _ I) as X. cbn beta in X. rewrite N, String.eqb_refl in X. exact X.
Qed.
Lemma lookup_order t nocash memory name : Permutation t directives -> lookup t nocash memory name = lookup directives nocash memory name.
Proof.
  intros P. destruct (lookup t nocash memory name) as [e|] eqn:E, (lookup directives nocash memory name) as [f|] eqn:F; [| | |reflexivity].
  - apply lookup_some in E as (Ie & Ne & Ae). apply lookup_some in F as (If & Nf & Af).
    f_equal. apply (table_once nocash memory); try assumption; [|congruence]. exact (Permutation_in _ P Ie).
  - apply lookup_some in E as (Ie & Ne & Ae). rewrite (lookup_none _ _ _ _ F e (Permutation_in _ P Ie) Ne) in Ae. discriminate.
  - apply lookup_some in F as (If & Nf & Af).
    rewrite (lookup_none _ _ _ _ E f (Permutation_in _ (Permutation_sym P) If) Nf) in Af. discriminate.
Qed.

Section Texts.
  Variable text_of : value -> string.

  (** ** Lists of parameters *)
  Lemma loaded_iff a : loaded a = true <-> readable a.
  Proof. unfold readable. destruct a; cbn; split; intros; try congruence; try discriminate. Qed.
  Lemma bad_nil l : map (fun _ : arg => EParameter) (filter (fun a => negb (loaded a)) l) = [] <-> Forall readable l.
  Proof.
    induction l as [|a l IH]; [split; constructor|]. cbn [filter]. destruct (loaded a) eqn:L; cbn [negb map].
    - rewrite IH. split; [intros F; constructor; [apply loaded_iff, L|exact F]|intros F; inversion F; assumption].
    - split; [discriminate|]. intros F. inversion F as [|x y A B]. apply loaded_iff in A. congruence.
  Qed.
  Definition fits_max (max : option nat) (n : nat) : Prop := match max with Some m => (n <= m)%nat | None => True end.
  Lemma with_list_ok args min max f : args <> [] -> Forall readable args -> (min <= List.length args)%nat -> fits_max max (List.length args) ->
    with_list args min max f = f args.
  Proof.
    intros NE R Lo Hi. unfold with_list, parseExpressionList. destruct args as [|a r] eqn:E; [congruence|]. rewrite <- E in *.
    replace (Nat.ltb (List.length args) min) with false by (symmetry; apply Nat.ltb_ge; exact Lo).
    replace (match max with Some m => Nat.ltb m (List.length args) | None => false end) with false
      by (destruct max as [m|]; [symmetry; apply Nat.ltb_ge; exact Hi|reflexivity]).
    apply bad_nil in R. rewrite R. reflexivity.
  Qed.
  Lemma with_list_some args min max f cmd errs rest : with_list args min max f = (Some cmd, errs, rest) ->
    args <> [] /\ Forall readable args /\ (min <= List.length args)%nat /\ fits_max max (List.length args) /\ f args = (Some cmd, errs, rest).
  Proof.
    unfold with_list, parseExpressionList. destruct args as [|a r] eqn:E.
    - cbn [filter loaded negb map List.length]. destruct (Nat.ltb 1 min); [discriminate|].
      destruct (match max with Some m => Nat.ltb m 1 | None => false end); discriminate.
    - assert (NE : args <> []) by (rewrite E; discriminate). rewrite <- E in *. clear a r E.
      destruct (Nat.ltb_spec (List.length args) min) as [|Lo]; [discriminate|].
      destruct (match max with Some m => Nat.ltb m (List.length args) | None => false end) eqn:Hi; [discriminate|].
      destruct (map _ _) as [|b bs] eqn:B; [|discriminate].
      intros F. split; [|split; [|split; [|split]]].
      + exact NE.
      + apply bad_nil, B.
      + exact Lo.
      + destruct max as [m|]; [apply Nat.ltb_ge, Hi|exact I].
      + exact F.
  Qed.

  (** ** Values of parameters *)
  Lemma literal_readable a s : literal a s -> readable a.
  Proof. intros L ->. discriminate L. Qed.
  Lemma number_readable a z : number a z -> readable a.
  Proof. intros L ->. discriminate L. Qed.
  Lemma spelled_readable a s : spelled text_of a s -> readable a.
  Proof. intros [L|[(z & L & _)|(z & L & _)]] ->; discriminate L. Qed.
  Lemma literal_eval a s : evaluateString text_of a false = Some s <-> literal a s.
  Proof. unfold evaluateString, literal. destruct (value_now a); split; intros; congruence. Qed.
  Lemma number_eval a z : evaluateInteger a = Some z <-> number a z.
  Proof. unfold evaluateInteger, number. destruct (value_now a); split; intros; congruence. Qed.
  Lemma spelled_eval a s : evaluateString text_of a true = Some s <-> spelled text_of a s.
  Proof.
    unfold evaluateString, spelled. destruct (value_now a) as [|z|f|t]; split.
    - discriminate.
    - intros [|[(?&?&?)|(?&?&?)]]; discriminate.
    - intros E. assert (s = text_of (VInt z)) by congruence. right. left. exists z. split; [reflexivity|assumption].
    - intros [|[(x&A&B)|(?&?&?)]]; try discriminate. congruence.
    - intros E. assert (s = text_of (VFloat f)) by congruence. right. right. exists f. split; [reflexivity|assumption].
    - intros [|[(?&?&?)|(x&A&B)]]; try discriminate. congruence.
    - intros E. left. congruence.
    - intros [A|[(?&?&?)|(?&?&?)]]; try discriminate. congruence.
  Qed.
  Lemma names_encoding_of s e : names_encoding s e -> encoding_of s = e.
  Proof.
    unfold names_encoding, encoding_of, encoding_names. intros I. cbn [In] in I.
    repeat (destruct I as [I|I]; [assert (N : lower_string s = _) by (symmetry; exact (f_equal fst I)); rewrite N;
      exact (f_equal snd I)|]). destruct I.
  Qed.

  (** ** From the manual to the parser *)
  Definition outcome_of (e : dentry) (c : cpu) (l : line) : outcome :=
    match call text_of c (d_handler e) (d_flags e) l with
    | None => Elsewhere
    | Some (None, errs, _) => Reported (match errs with [] => [EDirective] | _ => errs end)
    | Some (Some cmd, _, rest) =>
        if negb (has (d_flags e) MANUALSEPARATOR) && negb (match rest with [] => l_closed l | _ => false end)
        then Reported [EUnterminated] else Gives cmd
    end.
  Lemma not_other c name : ~ other_directive c name -> existsb (String.eqb name) (arch_names c) = false.
  Proof.
    intros H. destruct (existsb (String.eqb name) (arch_names c)) eqn:E; [|reflexivity]. exfalso. apply H.
    apply existsb_exists in E as (x & I & E). apply String.eqb_eq in E. subst x. apply in_or_app. right. exact I.
  Qed.
  Lemma parse_by c nocash memory name l e : ~ other_directive c name -> lookup directives nocash memory name = Some e ->
    parse_line text_of c nocash memory name l = outcome_of e c l.
  Proof. intros N L. unfold parse_line. rewrite (not_other _ _ N). unfold parseDirective. rewrite L. reflexivity. Qed.

  Definition align_flag (m : amode) : Z := match m with AVirtual => 2 | APhysical => 1 | AFill => 4 end.
  Lemma align_some m a r closed : dir_align (align_flag m) (a :: r) closed =
    with_list (a :: r) 1 (Some 2%nat) (fun l => some (DAlignFill m (nth_error l 0) (nth_error l 1)) []).
  Proof. destruct m, closed; reflexivity. Qed.

  Ltac names := repeat match goal with
    | H : In _ _ |- _ => cbn [In] in H
    | H : _ \/ _ |- _ => destruct H as [H|H]
    | H : False |- _ => destruct H
    | H : (_, _) = (_, _) |- _ => pose proof (f_equal fst H); pose proof (f_equal snd H); cbn [fst snd] in *; clear H
    | H : _ /\ _ |- _ => destruct H as [? H]
    end; subst.
  Ltac look := match goal with
    | N : ~ other_directive _ ?name |- parse_line _ ?c ?nc ?me ?name ?l = _ =>
        let r := eval vm_compute in (lookup directives nc me name) in
        match r with Some ?e => rewrite (parse_by c nc me name l e N eq_refl) end
    end.
  Ltac readables := repeat constructor; eauto using literal_readable, number_readable, spelled_readable.
  Ltac listed := rewrite with_list_ok; [|discriminate|readables|cbn; lia|cbn; try exact I; lia].
  Ltac open_call := unfold outcome_of; cbn [call d_handler d_flags l_args l_closed].
  Ltac finish := reflexivity.

  Lemma manual_to_parser c nocash memory name args cmd : ~ other_directive c name ->
    says text_of c nocash memory name args cmd -> parse_line text_of c nocash memory name (mkLine args true) = Gives cmd.
  Proof.
    intros N S. destruct S.
    - subst memory. apply literal_eval in H1 as E1. apply number_eval in H2 as E2.
      names; destruct nocash; look; open_call; listed; unfold dir_open; rewrite E1, E2; finish.
    - subst memory. apply literal_eval in H1 as E1. apply literal_eval in H2 as E2. apply number_eval in H3 as E3.
      names; destruct nocash; look; open_call; listed; unfold dir_open; rewrite E1, E2, E3; finish.
    - subst memory. apply literal_eval in H1 as E1. apply number_eval in H2 as E2.
      names; destruct nocash; look; open_call; listed; unfold dir_create; rewrite E1, E2; finish.
    - subst memory. names; destruct nocash; look; finish.
    - apply literal_eval in H0 as E1. destruct H1; names; destruct nocash, memory; look; open_call; listed; unfold dir_incbin; rewrite E1; finish.
    - apply literal_eval in H0 as E1. names; destruct nocash, memory; look; open_call; listed; unfold dir_incbin; rewrite E1; finish.
    - apply loaded_iff in H0. names; destruct nocash, memory; look; open_call; unfold dir_position; cbn [next_expression]; rewrite H0; finish.
    - apply loaded_iff in H0. names; destruct nocash, memory; look; open_call; unfold dir_position; cbn [next_expression]; rewrite H0; finish.
    - apply loaded_iff in H. destruct nocash, memory; look; open_call; unfold dir_header; cbn [next_expression]; rewrite H; finish.
    - destruct nocash, memory; look; finish.
    - destruct H0; destruct nocash, memory; look; open_call; rewrite (align_some AVirtual); listed; finish.
    - destruct nocash, memory; look; finish.
    - destruct H0; destruct nocash, memory; look; open_call; rewrite (align_some APhysical); listed; finish.
    - destruct H1; names; destruct nocash, memory; look; open_call; rewrite (align_some AFill); listed; finish.
    - destruct nocash, memory; look; open_call; listed; finish.
    - apply spelled_eval in H0 as E1. destruct H1 as [(-> & ->)|(b & s & -> & Sp & En)].
      + names; destruct nocash, memory; look; open_call; listed; unfold dir_table; rewrite E1; finish.
      + apply spelled_eval in Sp as E2. apply names_encoding_of in En.
        names; destruct nocash, memory; look; open_call; listed; unfold dir_table; rewrite E1, E2; finish.
    - apply spelled_eval in H as E1. destruct H0 as [(-> & ->)|(b & s & -> & Sp & En)].
      + names; destruct nocash, memory; look; open_call; listed; unfold dir_include; rewrite E1; finish.
      + apply spelled_eval in Sp as E2. apply names_encoding_of in En. subst e.
        names; destruct nocash, memory; look; open_call; listed; unfold dir_include; rewrite E1, E2; finish.
    - assert (W : forall flags, with_list (a :: r) 1 None (dir_data (word_size c) flags) = dir_data (word_size c) flags (a :: r)).
      { intros flags. apply with_list_ok; [discriminate|exact H0|cbn; lia|exact I]. }
      destruct H as [n k m U K| | | | |n I|n I| |].
      2-9: names; destruct nocash, memory; look; open_call; rewrite W; finish.
      destruct U as [n I| | | |n h I E|n I|n I|n I1 I|n I1 I].
      1-4: inversion K; subst; names; destruct nocash, memory; look; open_call; rewrite W; finish.
      + assert (h = (match c with CSuperH => 1 | _ => 2 end)%nat) by (destruct c; cbn in E; lia). subst h.
        destruct c; inversion K; subst; names; subst; try (destruct nocash); destruct memory; look; open_call; rewrite W; finish.
      + destruct c; inversion K; subst; names; subst; try (destruct nocash); destruct memory; look; open_call; rewrite W; finish.
      + destruct c; inversion K; subst; names; subst; try (destruct nocash); destruct memory; look; open_call; rewrite W; finish.
      + subst nocash. inversion K; subst; names; destruct memory; look; open_call; rewrite W; finish.
      + subst nocash. inversion K; subst; names; destruct memory; look; open_call; rewrite W; finish.
    - names; destruct nocash, memory; look; finish.
    - destruct nocash, memory; look; finish.
    - destruct H0; destruct nocash, memory; look; open_call; listed; finish.
    - destruct H0; destruct nocash, memory; look; open_call; listed; finish.
    - destruct H1; destruct nocash, memory; look; open_call; listed; finish.
    - destruct H; destruct nocash, memory; look; first [finish|open_call; unfold dir_auto; listed; finish].
    - destruct nocash, memory; look; open_call; unfold dir_auto; listed; finish.
    - apply spelled_eval in H0 as E1. names; destruct nocash, memory; look; open_call; listed; unfold dir_obj; rewrite E1; finish.
    - apply spelled_eval in H0 as E1. names; destruct nocash, memory; look; open_call; (rewrite with_list_ok; [|discriminate|constructor; [exact (spelled_readable _ _ H0)|constructor; [discriminate|constructor]]|cbn; lia|cbn; lia]);
        unfold dir_obj; rewrite E1; finish.
    - destruct H0 as [b v|s0 b Lo].
      + names; destruct b, nocash, memory; look; finish.
      + names; destruct nocash, memory; look; open_call; unfold dir_switch, string_or_identifier; rewrite Lo; destruct b; finish.
    - apply loaded_iff in H0. destruct nocash, memory; look; open_call; unfold dir_label; rewrite H0, H; finish.
    - apply loaded_iff in H0. destruct nocash, memory; look; open_call; unfold dir_label; rewrite H0, H; finish.
    - names; destruct nocash, memory; look; finish.
    - names; destruct nocash, memory; look; finish.
  Qed.

  (** ** From the parser to the manual *)
  Lemma gives_inv e c l cmd : outcome_of e c l = Gives cmd -> has (d_flags e) MANUALSEPARATOR = false ->
    exists errs, call text_of c (d_handler e) (d_flags e) l = Some (Some cmd, errs, []) /\ l_closed l = true.
  Proof.
    unfold outcome_of. destruct (call _ _ _ _ _) as [[[[cm|] errs] rest]|]; try discriminate.
    intros G M. rewrite M in G. cbn [negb andb] in G. destruct rest as [|a rest]; [|discriminate].
    destruct (l_closed l); cbn [negb] in G; [|discriminate]. exists errs. split; [|reflexivity]. assert (cm = cmd) by congruence. subst. reflexivity.
  Qed.
  Lemma encoding_names_of s e : names_encoding s e -> names_encoding s (encoding_of s).
  Proof. intros N. rewrite (names_encoding_of _ _ N). exact N. Qed.

  Ltac yes := repeat match goal with
    | H : evaluateString text_of _ false = Some _ |- _ => apply literal_eval in H
    | H : evaluateString text_of _ true = Some _ |- _ => apply spelled_eval in H
    | H : evaluateInteger _ = Some _ |- _ => apply number_eval in H
    | H : Forall readable (_ :: _) |- _ => let a := fresh in let b := fresh in pose proof (Forall_inv H) as a; pose proof (Forall_inv_tail H) as b; clear H
    end.
  Ltac inlist := cbn [In]; tauto.
  Ltac cases H := repeat (match type of H with context [match ?x with _ => _ end] => destruct x eqn:?; try discriminate H end).

  Lemma align_says c nocash memory name m l cmd errs : l_closed l = true -> dir_align (align_flag m) (l_args l) (l_closed l) = (Some cmd, errs, []) ->
    match m with AVirtual => name = ".align" | APhysical => name = ".aligna" | AFill => In name [".fill"; "defs"] end ->
    says text_of c nocash memory name (l_args l) cmd.
  Proof.
    intros C H N. destruct (l_args l) as [|a r].
    - rewrite C in H. destruct m; cbn in H; [| |discriminate H]; assert (E : cmd = _) by (symmetry; exact (f_equal (fun x => match x with (Some y, _, _) => y | _ => cmd end) H)); cbn in E; subst; constructor.
    - rewrite align_some in H. apply with_list_some in H as (_ & R & _ & Hi & H).
      assert (E : cmd = DAlignFill m (nth_error (a :: r) 0) (nth_error (a :: r) 1)) by (unfold some in H; congruence). subst cmd.
      cbn [fits_max List.length] in Hi. destruct r as [|b [|? ?]]; [| |cbn in Hi; lia]; yes; cbn [nth_error]; destruct m; subst;
        (apply s_align || apply s_aligna || apply s_fill); auto; constructor; auto.
  Qed.
  Lemma switch_says c nocash memory name s args cmd errs : dir_switch s args = (Some cmd, errs, []) ->
    In (name, s) [(".erroronwarning", SErrorOnWarning); (".relativeinclude", SRelativeInclude); (".nocash", SNocash); (".sym", SSym)] ->
    says text_of c nocash memory name args cmd.
  Proof.
    unfold dir_switch. intros H I. destruct (string_or_identifier args) as [n|] eqn:S; [|discriminate].
    assert (X : exists b, n = onoff b /\ cmd = DSwitch s b /\ tl args = []).
    { destruct (String.eqb n "on") eqn:E1; [apply String.eqb_eq in E1; exists true; unfold some in H; repeat split; [exact E1|congruence|congruence]|].
      destruct (String.eqb n "off") eqn:E2; [apply String.eqb_eq in E2; exists false; unfold some in H; repeat split; [exact E2|congruence|congruence]|discriminate]. }
    destruct X as (b & -> & -> & T). destruct args as [|a r]; [discriminate|]. cbn [tl] in T. subst r.
    apply (s_switch _ _ _ _ name s a b I). destruct a as [|nm v|t|v]; try discriminate S; cbn in S.
    - assert (nm = onoff b) by congruence. subst nm. constructor.
    - constructor. congruence.
  Qed.
  Lemma label_says c nocash memory thumb name args cmd errs : dir_label thumb args = (Some cmd, errs, []) ->
    (thumb = None /\ name = ".definelabel") \/ (thumb = Some false /\ name = ".definedatalabel") -> says text_of c nocash memory name args cmd.
  Proof.
    unfold dir_label. intros H N. destruct args as [|[|n v| |] [|e r]]; try discriminate H.
    destruct (loaded e) eqn:L; [|discriminate H]. destruct (valid_name n) eqn:V; [|discriminate H]. cbn [negb] in H. unfold some in H.
    assert (cmd = DLabel n e thumb) by congruence. assert (r = []) by congruence. subst. apply loaded_iff in L.
    destruct N as [(-> & ->)|(-> & ->)]; constructor; assumption.
  Qed.
  Lemma message_says c nocash memory name lv flags args cmd errs : dir_message flags args = (Some cmd, errs, []) ->
    In (name, lv, flags) [(".warning", LWarning, 1); (".error", LError, 2); (".notice", LNotice, 3)] -> says text_of c nocash memory name args cmd.
  Proof.
    intros H I. assert (X : exists a, cmd = DMessage lv a /\ (args = [a] \/ args = [] /\ a = PBad)).
    { destruct args as [|a r]; cbn [In] in I; destruct I as [I|[I|[I|[]]]]; pose proof (f_equal snd I) as F; pose proof (f_equal (fun x => snd (fst x)) I) as L;
        cbn in F, L; subst flags lv; cbn in H; unfold some in H; [exists PBad|exists PBad|exists PBad|exists a|exists a|exists a];
        (split; [congruence|]); [right; split; reflexivity ..| | |]; left; assert (r = []) by congruence; subst; reflexivity. }
    destruct X as (a & -> & Y).
    assert (I2 : In (name, lv) [(".warning", LWarning); (".error", LError); (".notice", LNotice)]).
    { exact (in_map fst _ _ I). }
    destruct Y as [->|(-> & ->)]; constructor; exact I2.
  Qed.
  Lemma encoding_tail r f (mk : string -> encoding -> dcmd) (fail : list derr) cmd errs name a :
    good_encoding text_of name (a :: r) -> In name [".loadtable"; ".table"; ".include"] -> (List.length r <= 1)%nat ->
    match r with [] => some (mk f EncGuess) [] | c :: _ => match evaluateString text_of c true with Some n => some (mk f (encoding_of n)) [] | None => none fail end end = (Some cmd, errs, []) ->
    exists e, encoded text_of r e /\ cmd = mk f e.
  Proof.
    intros G I L H. destruct r as [|b [|? ?]]; [| |cbn in L; lia].
    - exists EncGuess. split; [left; split; reflexivity|]. unfold some in H. congruence.
    - destruct (evaluateString text_of b true) as [s|] eqn:E; [|discriminate H]. apply spelled_eval in E.
      exists (encoding_of s). split; [|unfold some in H; congruence]. right. exists b, s. split; [reflexivity|]. split; [exact E|].
      destruct (G I a b s eq_refl E) as (e & N). exact (encoding_names_of _ _ N).
  Qed.

  Ltac row_list G := apply with_list_some in G as (_ & R & Lo & Hi & G); cbn [fits_max] in Hi.
  Ltac shapes l := destruct l as [|?a [|?b [|?d [|? ?]]]]; cbn [List.length] in *; try lia.
  Ltac got G := match type of G with (Some ?x, _, _) = (Some ?cmd, _, _) => assert (cmd = x) by congruence; subst cmd end.

  Lemma data_says c nocash memory name flags args cmd errs m t : with_list args 1 None (dir_data (word_size c) flags) = (Some cmd, errs, []) ->
    dir_data (word_size c) flags args = some (DData m t args) [] -> data_directive c nocash name m t -> says text_of c nocash memory name args cmd.
  Proof.
    intros G D S. row_list G. rewrite D in G. unfold some in G. got G. destruct args as [|a r]; [cbn in Lo; lia|]. constructor; assumption.
  Qed.

  Lemma parser_to_manual c nocash memory name l cmd : ~ other_directive c name -> good_encoding text_of name (l_args l) ->
    parse_line text_of c nocash memory name l = Gives cmd -> l_closed l = true /\ says text_of c nocash memory name (l_args l) cmd.
  Proof.
    intros N GE P. destruct (lookup directives nocash memory name) as [e|] eqn:L.
    2:{ unfold parse_line in P. rewrite (not_other _ _ N) in P. unfold parseDirective in P. rewrite L in P. discriminate P. }
    rewrite (parse_by _ _ _ _ l e N L) in P. apply lookup_some in L as (I & Nm & Ap).
    assert (MS : has (d_flags e) MANUALSEPARATOR = false).
    { destruct (has (d_flags e) MANUALSEPARATOR) eqn:M; [|reflexivity]. exfalso. apply N. apply in_or_app. left.
      assert (X : forallb (fun e => negb (has (d_flags e) MANUALSEPARATOR) || existsb (String.eqb (d_name e)) [".func"; ".function"]) directives = true) by (vm_compute; reflexivity).
      rewrite forallb_forall in X. specialize (X _ I). rewrite M in X. cbn [negb orb existsb] in X. rewrite Nm in X.
      apply orb_true_iff in X as [X|X]; [apply String.eqb_eq in X; rewrite X; cbn; tauto|]. apply orb_true_iff in X as [X|X]; [|discriminate].
      apply String.eqb_eq in X; rewrite X; cbn; tauto. }
    destruct (gives_inv _ _ _ _ P MS) as (errs & G & C). split; [exact C|]. clear P MS.
    assert (G' : call text_of c (d_handler e) (d_flags e) l = Some (Some cmd, errs, [])) by exact G. clear G.
    unfold directives in I. cbn [In] in I.
    repeat (destruct I as [I|I]; [subst e; cbn [d_name d_handler d_flags call] in *; subst name|]); [..|destruct I].
    all: match type of G' with Some ?x = Some ?y => assert (G : x = y) by congruence | _ => discriminate G' end; clear G'.
    all: try (exfalso; apply N; cbn; tauto).
    all: try match goal with H : dir_switch _ _ = _ |- _ => eapply switch_says; [exact H|inlist] end.
    all: try match goal with H : dir_label _ _ = _ |- _ => eapply label_says; [exact H|tauto] end.
    all: try match goal with H : dir_message _ _ = _ |- _ => eapply message_says; [exact H|inlist] end.
    all: try match goal with H : dir_align ?f _ _ = _ |- _ =>
      first [apply (align_says c nocash memory _ AVirtual l cmd errs C H); reflexivity
            |apply (align_says c nocash memory _ APhysical l cmd errs C H); reflexivity
            |apply (align_says c nocash memory _ AFill l cmd errs C H); inlist] end.
    all: destruct l as [args closed]; cbn [l_args l_closed] in *.
    all: try match type of G with
      | with_list _ _ _ (dir_open _) = _ => destruct memory; [destruct nocash; discriminate Ap|]; row_list G; shapes args; unfold dir_open in G;
          cases G; unfold some in G; got G; yes; (apply s_open || apply s_copy); try assumption; try reflexivity; inlist
      | with_list _ _ _ (dir_create _) = _ => destruct memory; [destruct nocash; discriminate Ap|]; row_list G; shapes args; unfold dir_create in G;
          cases G; unfold some in G; got G; yes; apply s_create; try assumption; try reflexivity; inlist
      | some DClose _ = _ => destruct memory; [destruct nocash; discriminate Ap|]; unfold some in G; got G; assert (args = []) by congruence; subst args;
          apply s_close; [reflexivity|inlist]
      | with_list _ _ _ (dir_incbin _) = _ => row_list G; shapes args; unfold dir_incbin in G; cases G; unfold some in G; got G; yes; cbn [nth_error];
          (apply s_incbin_size || apply s_incbin); try assumption; try inlist; constructor; assumption
      | dir_position _ _ = _ => destruct args as [|a r]; [discriminate G|]; unfold dir_position in G; cbn [next_expression] in G;
          destruct (loaded a) eqn:La; [|discriminate G]; cbn in G; unfold some in G; got G; assert (r = []) by congruence; subst r; apply loaded_iff in La;
          (apply s_org || apply s_orga); [inlist|assumption]
      | dir_header _ = _ => destruct args as [|a r]; [discriminate G|]; unfold dir_header in G; cbn [next_expression] in G;
          destruct (loaded a) eqn:La; [|discriminate G]; unfold some in G; got G; assert (r = []) by congruence; subst r; apply loaded_iff in La;
          apply s_header; assumption
      | with_list _ _ _ dir_skip = _ => row_list G; shapes args; unfold dir_skip, some in G; got G; yes; apply s_skip; assumption
      | with_list _ _ _ (dir_obj _) = _ => row_list G; shapes args; unfold dir_obj in G; cases G; unfold some in G; got G; yes;
          [apply s_obj|match goal with E : evaluateIdentifier ?b = Some _ |- _ => destruct b; try discriminate E; cbn in E; (assert (X := E)); match type of X with Some ?u = Some ?v => assert (u = v) by congruence; subst u end end; apply s_obj_ctor]; try assumption; inlist
      | with_list _ _ _ (dir_table _) = _ => row_list G; destruct args as [|a r]; [cbn in Lo; lia|]; unfold dir_table in G;
          destruct (evaluateString text_of a true) as [f|] eqn:Ev; [|discriminate G]; apply spelled_eval in Ev;
          destruct (encoding_tail r f DTable [EEncoding] cmd errs _ a GE ltac:(inlist) ltac:(cbn in Hi; lia) G) as (e & En & ->);
          apply s_table; [inlist|assumption|assumption]
      | with_list _ _ _ (dir_include _) = _ => row_list G; destruct args as [|a r]; [cbn in Lo; lia|]; unfold dir_include in G;
          destruct (evaluateString text_of a true) as [f|] eqn:Ev; [|discriminate G]; apply spelled_eval in Ev;
          destruct (encoding_tail r f DInclude [] cmd errs _ a GE ltac:(inlist) ltac:(cbn in Hi; lia) G) as (e & En & ->);
          apply s_include; assumption
      | dir_mips _ _ = _ => cbn in G; unfold some in G; got G; assert (args = []) by congruence; subst args; apply s_arch; inlist
      | dir_arm _ _ = _ => cbn in G; unfold some in G; got G; assert (args = []) by congruence; subst args; (apply s_gba || (apply s_arch; inlist))
      | dir_sh _ _ = _ => cbn in G; unfold some in G; got G; assert (args = []) by congruence; subst args; apply s_arch; inlist
      | with_list _ _ _ (dir_area _) = _ => row_list G; shapes args; unfold dir_area in G; cbn in G; unfold some in G; got G; yes;
          (apply s_area || apply s_region); try assumption; constructor; assumption
      | with_list _ _ _ (dir_define_area _) = _ => row_list G; shapes args; unfold dir_define_area in G; cbn in G; unfold some in G; got G; yes;
          apply s_defineregion; try assumption; constructor; assumption
      | dir_auto _ _ = _ => destruct args as [|a r]; [rewrite C in G; cbn in G; unfold some in G; got G; apply s_autoregion; constructor|];
          unfold dir_auto in G; row_list G; shapes r; unfold some in G; got G; yes; [apply s_autoregion; constructor; assumption|apply s_autoregion_range; assumption]
      end.
    all: destruct c, nocash; try discriminate Ap; (eapply data_says; [exact G|reflexivity|]).
    all: clear; match goal with |- data_directive ?c ?nc ?n ?m ?t => let m' := eval vm_compute in m in let t' := eval vm_compute in t in change (data_directive c nc n m' t') end.
    all: first
      [apply dd_float|apply dd_double|apply dd_ascii|apply dd_asciiz|apply dd_sjis|apply dd_sjisn
      |apply dd_string; inlist|apply dd_stringn; inlist
      |match goal with |- data_directive ?c ?nc ?n ?m _ => apply (dd_ints c nc n (unit_size m) m); [|constructor];
         first [exact (u_16 c nc)|exact (u_32 c nc)|exact (u_64 c nc)
               |refine (u_byte c nc n _); inlist
               |refine (u_half c nc n (unit_size m) _ eq_refl); first [left; inlist|right; split; [reflexivity|inlist]]
               |refine (u_word c nc n _); first [left; inlist|right; split; [reflexivity|inlist]]
               |refine (u_double c nc n _); first [left; inlist|right; split; [reflexivity|inlist]]
               |refine (u_nocash_16 c nc n eq_refl _); inlist
               |refine (u_nocash_32 c nc n eq_refl _); inlist] end].
  Qed.

  (** ** Both ways *)
  Lemma line_iff c nocash memory name l cmd : ~ other_directive c name -> good_encoding text_of name (l_args l) ->
    (parse_line text_of c nocash memory name l = Gives cmd <-> l_closed l = true /\ says text_of c nocash memory name (l_args l) cmd).
  Proof.
    intros N GE. split; [apply parser_to_manual; assumption|]. intros (C & S). destruct l as [args closed]. cbn in *. subst closed.
    apply manual_to_parser; assumption.
  Qed.
  Lemma line_elsewhere c nocash memory name l : ~ other_directive c name -> parse_line text_of c nocash memory name l <> Elsewhere.
  Proof.
    intros N P. destruct (lookup directives nocash memory name) as [e|] eqn:L.
    2:{ unfold parse_line in P. rewrite (not_other _ _ N) in P. unfold parseDirective in P. rewrite L in P. discriminate P. }
    rewrite (parse_by _ _ _ _ l e N L) in P. apply lookup_some in L as (I & Nm & _). unfold outcome_of in P.
    assert (X : forallb (fun e => match d_handler e with HConditional | HFunction => existsb (String.eqb (d_name e)) [".if"; ".ifdef"; ".ifndef"; ".func"; ".function"] | _ => true end) directives = true)
      by (vm_compute; reflexivity).
    rewrite forallb_forall in X. specialize (X _ I). rewrite Nm in X.
    assert (O : existsb (String.eqb name) [".if"; ".ifdef"; ".ifndef"; ".func"; ".function"] = false).
    { destruct (existsb _ _) eqn:Y; [|reflexivity]. exfalso. apply N. apply existsb_exists in Y as (x & Ix & Y). apply String.eqb_eq in Y. subst x.
      apply in_or_app. left. exact Ix. }
    rewrite O in X. assert (Cl : exists r, call text_of c (d_handler e) (d_flags e) l = Some r).
    { destruct (d_handler e); try discriminate X; eexists; reflexivity. }
    destruct Cl as ([[[?|] ?] ?] & Cl); rewrite Cl in P; [|discriminate P]. destruct (_ && _); discriminate P.
  Qed.
  Lemma line_known c nocash memory name l : ~ other_directive c name -> known_directive text_of c nocash memory name ->
    parse_line text_of c nocash memory name l <> Unknown.
  Proof.
    intros N (args & cmd & S) P. pose proof (manual_to_parser _ _ _ _ _ _ N S) as Q.
    unfold parse_line in P, Q. rewrite (not_other _ _ N) in P, Q. unfold parseDirective in P, Q.
    destruct (lookup directives nocash memory name) as [e|]; [|discriminate Q].
    destruct (call text_of c (d_handler e) (d_flags e) l) as [[[[?|] ?] ?]|]; try discriminate P. destruct (_ && _); discriminate P.
  Qed.
  Lemma line_reported c nocash memory name l : ~ other_directive c name -> good_encoding text_of name (l_args l) ->
    known_directive text_of c nocash memory name ->
    ~ (l_closed l = true /\ exists cmd, says text_of c nocash memory name (l_args l) cmd) ->
    exists e errs, parse_line text_of c nocash memory name l = Reported (e :: errs).
  Proof.
    intros N GE K S. destruct (parse_line text_of c nocash memory name l) as [| |errs|cmd] eqn:P.
    - exfalso. exact (line_known _ _ _ _ l N K P).
    - exfalso. exact (line_elsewhere _ _ _ _ l N P).
    - assert (errs <> []).
      { intros ->. unfold parse_line in P. rewrite (not_other _ _ N) in P. unfold parseDirective in P.
        destruct (lookup directives nocash memory name) as [e|]; [|discriminate P].
        destruct (call text_of c (d_handler e) (d_flags e) l) as [[[[?|] [|? ?]] ?]|]; try discriminate P; destruct (_ && _); discriminate P. }
      destruct errs as [|e errs]; [congruence|]. exists e, errs. reflexivity.
    - exfalso. apply S. apply (line_iff _ _ _ _ _ _ N GE) in P as (C & X). split; [exact C|]. exists cmd. exact X.
  Qed.
  (** A line of each directive *)
  Definition sample (h : handler) : list arg :=
    match h with
    | HOpen | HCreate | HDefineArea => [PString "a"; PExpr (VInt 0)]
    | HDefineLabel | HDefineDataLabel => [PIdent "a" VInvalid; PExpr (VInt 0)]
    | HClose | HMipsArch | HArmArch | HShArch => []
    | _ => [PString "on"]
    end.
  Definition table_names : list string := [".loadtable"; ".table"; ".include"].
  Definition sample_good (c : cpu) (e : dentry) : bool :=
    (match outcome_of e c (mkLine (sample (d_handler e)) true) with Gives _ => true | _ => false end &&
     (negb (Nat.eqb (List.length (sample (d_handler e))) 2) || negb (existsb (String.eqb (d_name e)) table_names)))
    || existsb (String.eqb (d_name e)) [".if"; ".ifdef"; ".ifndef"; ".func"; ".function"].
  Lemma samples_good : forallb (fun c => forallb (sample_good c) directives) [CInvalid; CMips; CArm; CSuperH] = true.
  Proof. vm_compute. reflexivity. Qed.
  (** A name that is no directive of the manual *)
  Lemma line_unknown c nocash memory name l : ~ other_directive c name -> ~ known_directive text_of c nocash memory name ->
    parse_line text_of c nocash memory name l = Unknown.
  Proof.
    intros N K. unfold parse_line. rewrite (not_other _ _ N). unfold parseDirective.
    destruct (lookup directives nocash memory name) as [e|] eqn:L; [|reflexivity]. exfalso. apply K.
    pose proof (lookup_some _ _ _ _ _ L) as (I & Nm & _).
    pose proof samples_good as X. rewrite forallb_forall in X. specialize (X c ltac:(destruct c; cbn; tauto)).
    rewrite forallb_forall in X. specialize (X _ I). unfold sample_good in X. apply orb_true_iff in X as [X|X].
    - apply andb_true_iff in X as (G & E). rewrite <- (parse_by c nocash memory name (mkLine (sample (d_handler e)) true) e N L) in G.
      destruct (parse_line text_of c nocash memory name (mkLine (sample (d_handler e)) true)) as [| | |cmd] eqn:P; try discriminate G.
      apply parser_to_manual in P as (_ & P); [eexists _, cmd; exact P|exact N|]. cbn [l_args].
      intros It a b s Es _. exfalso. rewrite Es in E. cbn [List.length Nat.eqb negb orb] in E. apply negb_true_iff in E.
      rewrite Nm in E. assert (Y : existsb (String.eqb name) table_names = true); [|congruence].
      apply existsb_exists. exists name. split; [exact It|apply String.eqb_refl].
    - exfalso. apply N. apply in_or_app. left. rewrite Nm in X. apply existsb_exists in X as (x & Ix & X). apply String.eqb_eq in X. subst x. exact Ix.
  Qed.

  (** ** Data directives *)
  Lemma table_no_data c nocash memory name l m t r : In name table_names -> ~ other_directive c name ->
    parse_line text_of c nocash memory name l <> Gives (DData m t r).
  Proof.
    intros I N P. unfold table_names in I. destruct (lookup directives nocash memory name) as [e|] eqn:L.
    2:{ unfold parse_line in P. rewrite (not_other _ _ N) in P. unfold parseDirective in P. rewrite L in P. discriminate P. }
    rewrite (parse_by _ _ _ _ l e N L) in P.
    assert (E : d_handler e = HTable \/ d_handler e = HInclude).
    { cbn [In] in I. destruct I as [<-|[<-|[<-|[]]]]; destruct nocash, memory; vm_compute in L;
        (assert (X : d_handler e = _) by (symmetry; exact (f_equal (fun o => match o with Some e => d_handler e | None => HTable end) L))); cbn in X; tauto. }
    assert (F : has (d_flags e) MANUALSEPARATOR = false).
    { cbn [In] in I. destruct I as [<-|[<-|[<-|[]]]]; destruct nocash, memory; vm_compute in L;
        (assert (X : d_flags e = _) by (symmetry; exact (f_equal (fun o => match o with Some e => d_flags e | None => 0 end) L))); rewrite X; reflexivity. }
    apply gives_inv in P as (errs & G & _); [|exact F]. destruct E as [E|E]; rewrite E in G; cbn [call] in G;
      match type of G with Some ?x = Some ?y => assert (G2 : x = y) by congruence end; clear G; row_list G2;
      unfold dir_table, dir_include in G2; cases G2; unfold some in G2; congruence.
  Qed.
  Lemma data_iff c nocash memory name l m t r : ~ other_directive c name ->
    (parse_line text_of c nocash memory name l = Gives (DData m t r) <->
     l_closed l = true /\ r = l_args l /\ l_args l <> [] /\ Forall readable (l_args l) /\ data_directive c nocash name m t).
  Proof.
    intros N. split.
    - intros P. assert (GE : good_encoding text_of name (l_args l)).
      { intros I. exfalso. exact (table_no_data _ _ _ _ _ _ _ _ I N P). }
      apply (line_iff _ _ _ _ _ _ N GE) in P as (C & S). split; [exact C|]. inversion S; subst. repeat split; try assumption; discriminate.
    - intros (C & -> & NE & R & D). destruct l as [args closed]. cbn [l_args l_closed] in *. subst closed.
      destruct args as [|a r]; [congruence|]. apply manual_to_parser; [exact N|]. apply s_data; assumption.
  Qed.
  Lemma ints_total n c nocash name : unit_bytes c nocash name n -> exists m, ints n m.
  Proof.
    intros U. destruct U as [? ?| | | |? h ? E| | | |]; try (eexists; constructor).
    - destruct c; cbn in E; [assert (h = 2%nat) by lia ..|assert (h = 1%nat) by lia]; subst; eexists; constructor.
    - destruct c; eexists; constructor.
    - destruct c; eexists; constructor.
  Qed.
End Texts.
