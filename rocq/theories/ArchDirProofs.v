(** Proofs about the directives of the architectures. *)

Require Import ZArith String Ascii List Bool Lia.
From Verif Require Import ExprModel LexModel SymModel DirModel DirSpec DirProofs ArchDirModel ArchDirSpec.
Import ListNotations.
Local Open Scope string_scope.
Local Open Scope list_scope.

Lemma alist_ok : forall args min max f, args <> [] -> Forall readable args -> (min <= List.length args <= max)%nat -> alist args min max f = f args.
Proof.
  intros args min max f NE R (Lo & Hi). unfold alist, parseExpressionList. destruct args as [|a r] eqn:E; [congruence|]. rewrite <- E in *.
  replace (Nat.ltb (List.length args) min) with false by (symmetry; apply Nat.ltb_ge; exact Lo).
  replace (Nat.ltb max (List.length args)) with false by (symmetry; apply Nat.ltb_ge; exact Hi).
  apply bad_nil in R. rewrite R. reflexivity.
Qed.
Lemma alist_cmd : forall args min max f, (forall errs, alist args min max f <> GNone errs) ->
  args <> [] /\ Forall readable args /\ (min <= List.length args <= max)%nat /\ alist args min max f = f args.
Proof.
  intros args min max f. unfold alist, parseExpressionList. destruct args as [|a r] eqn:E.
  - cbn [filter loaded negb map List.length]. destruct (Nat.ltb 1 min); [let h := fresh in intros h; destruct (h _ eq_refl)|].
    destruct (Nat.ltb max 1); let h := fresh in intros h; destruct (h _ eq_refl).
  - assert (NE : args <> []) by (rewrite E; discriminate). rewrite <- E in *. clear a r E.
    destruct (Nat.ltb_spec (List.length args) min) as [|Lo]; [let h := fresh in intros h; destruct (h _ eq_refl)|].
    destruct (Nat.ltb_spec max (List.length args)) as [|Hi]; [let h := fresh in intros h; destruct (h _ eq_refl)|].
    destruct (map _ _) as [|b bs] eqn:B; [|let h := fresh in intros h; destruct (h _ eq_refl)].
    intros _. repeat split; [exact NE | apply bad_nil, B | exact Lo | exact Hi].
Qed.

Section Texts.
  Variable text_of : value -> string.
  Variables elf_ok psx_ok : string -> bool.
  Variable psx : bool.
  Notation says := (arch_says text_of elf_ok psx_ok psx).
  Notation reads := (arch_line text_of elf_ok psx_ok psx).

  Lemma import_ok : forall c f n i, imports elf_ok psx_ok psx c f n i -> c = CMips \/ c = CSuperH.
  Proof. intros c f n i [ | | | | ]; auto. Qed.

  Lemma to_parser : forall c name args cmd, says c name args cmd -> reads c name (mkLine args true) = AGives cmd.
  Proof.
    intros c name args cmd S. destruct S as [ | | |a R|n v a V R|n v a V R| | |a f P|a b f g P Q|c n a f i N P I|c n a f m v i N P I];
      try reflexivity.
    - apply loaded_iff in R. unfold arch_line. cbn [arch_table find fst String.eqb Ascii.eqb Bool.eqb acall l_args arm_msg next_expression]. rewrite R. reflexivity.
    - apply loaded_iff in R. unfold arch_line. cbn [arch_table find fst String.eqb Ascii.eqb Bool.eqb acall l_args arm_label]. rewrite R, V. reflexivity.
    - apply loaded_iff in R. unfold arch_line. cbn [arch_table find fst String.eqb Ascii.eqb Bool.eqb acall l_args arm_label]. rewrite R, V. reflexivity.
    - unfold arch_line. cbn [arch_table find fst String.eqb Ascii.eqb Bool.eqb acall l_args].
      rewrite alist_ok; [|discriminate|constructor; [exact (spelled_readable _ _ _ P)|constructor]|cbn; lia].
      apply spelled_eval in P. unfold mips_loadelf. rewrite P. reflexivity.
    - unfold arch_line. cbn [arch_table find fst String.eqb Ascii.eqb Bool.eqb acall l_args].
      rewrite alist_ok; [|discriminate|constructor; [exact (spelled_readable _ _ _ P)|constructor; [exact (spelled_readable _ _ _ Q)|constructor]]|cbn; lia].
      apply spelled_eval in P. apply spelled_eval in Q. unfold mips_loadelf. rewrite P, Q. reflexivity.
    - assert (A : forall g, alist [a] 1 2 g = g [a]).
      { intros g. apply alist_ok; [discriminate|constructor; [exact (spelled_readable _ _ _ P)|constructor]|cbn; lia]. }
      apply spelled_eval in P. unfold arch_line. inversion I as [? ? C|? ? C X|? C X Y|? C X Y|]; subst c;
        destruct N as [<-|[<-|[]]]; cbn [arch_table find fst String.eqb Ascii.eqb Bool.eqb acall l_args]; rewrite A; unfold mips_import, sh_import; rewrite P, ?X, ?Y; reflexivity.
    - assert (A : forall g, alist [a; PIdent m v] 1 2 g = g [a; PIdent m v]).
      { intros g. apply alist_ok; [discriminate|constructor; [exact (spelled_readable _ _ _ P)|constructor; [discriminate|constructor]]|cbn; lia]. }
      apply spelled_eval in P. unfold arch_line. inversion I as [? ? C|? ? C X| | |? ? C X Y]; subst c;
        destruct N as [<-|[<-|[]]]; cbn [arch_table find fst String.eqb Ascii.eqb Bool.eqb acall l_args]; rewrite A; unfold mips_import, sh_import; cbn [evaluateIdentifier]; rewrite P, ?X, ?Y; reflexivity.
  Qed.

  (** What a line that gives a command looks like *)
  Lemma gives_call : forall c name l cmd, reads c name l = AGives cmd ->
    exists h, In (name, h) (arch_table c) /\ acall text_of elf_ok psx_ok psx h (l_args l) = GCmd cmd [] /\ l_closed l = true.
  Proof.
    intros c name l cmd. unfold arch_line. destruct (find _ _) as [[n h]|] eqn:F; [|discriminate].
    apply find_some in F. destruct F as (F & E). apply String.eqb_eq in E. cbn [fst] in E. subst n.
    destruct (acall _ _ _ _ h (l_args l)) as [errs|e rest|k rest] eqn:A; try discriminate.
    destruct rest as [|x rest]; [|discriminate]. destruct (l_closed l); [|discriminate]. intros E. assert (k = cmd) by congruence. subst k.
    exists h. auto.
  Qed.

  Lemma acall_list : forall args f cmd, alist args 1 2 f = GCmd cmd [] -> f args = GCmd cmd [] /\ Forall readable args /\
    ((exists a, args = [a]) \/ exists a b, args = [a; b]).
  Proof.
    intros args f cmd H. destruct (alist_cmd args 1 2 f) as (NE & R & Le & E); [intros errs; rewrite H; discriminate|].
    rewrite H in E. split; [symmetry; exact E | split; [exact R|]]. destruct args as [|a [|b [|d r]]]; [congruence|left; eauto|right; eauto|cbn in Le; lia].
  Qed.

  Lemma from_parser : forall c name l cmd, reads c name l = AGives cmd -> l_closed l = true /\ says c name (l_args l) cmd.
  Proof.
    intros c name l cmd H. destruct (gives_call _ _ _ _ H) as (h & I & A & C). split; [exact C|]. clear H C.
    assert (IM : forall k n, (k = CMips /\ acall text_of elf_ok psx_ok psx KMipsImport (l_args l) = GCmd cmd [] \/
                 k = CSuperH /\ acall text_of elf_ok psx_ok psx KShImport (l_args l) = GCmd cmd []) -> In n [".importobj"; ".importlib"] -> says k n (l_args l) cmd).
    { intros k n [(-> & B)|(-> & B)] N; cbn [acall] in B; apply acall_list in B; destruct B as (B & _ & [(a & E)|(a & b & E)]); rewrite E in B |- *;
        unfold mips_import, sh_import in B; destruct (evaluateString text_of a true) as [f|] eqn:P; try discriminate B; apply spelled_eval in P.
      - destruct psx eqn:X; [destruct (psx_ok f) eqn:Y|]; assert (Q : cmd = _) by (symmetry; exact (f_equal (fun g => match g with GCmd x _ => x | _ => cmd end) B));
          cbn in Q; subst cmd; apply a_import; auto; [apply im_psx|apply im_psx_elf|apply im_mips]; auto.
      - destruct b as [|m v|s|v]; try discriminate B. cbn [evaluateIdentifier] in B. destruct psx eqn:X; [destruct (elf_ok f) eqn:Y; [|discriminate B]|];
          assert (Q : cmd = _) by (symmetry; exact (f_equal (fun g => match g with GCmd x _ => x | _ => cmd end) B)); cbn in Q; subst cmd; apply a_import_ctor; auto; [apply im_psx_ctor|apply im_mips]; auto.
      - assert (Q : cmd = _) by (symmetry; exact (f_equal (fun g => match g with GCmd x _ => x | _ => cmd end) B)); cbn in Q; subst cmd. apply a_import; auto. apply im_sh; reflexivity.
      - destruct b as [|m v|s|v]; try discriminate B. assert (Q : cmd = _) by (symmetry; exact (f_equal (fun g => match g with GCmd x _ => x | _ => cmd end) B)); cbn in Q; subst cmd.
        apply a_import_ctor; auto. apply im_sh; reflexivity. }
    assert (LB : forall t, arm_label t (l_args l) = GCmd cmd [] -> exists n v a, l_args l = [PIdent n v; a] /\ valid_name n = true /\ readable a /\ cmd = ALabel n a t).
    { intros t B. unfold arm_label in B. destruct (l_args l) as [|[|n v|s|v] [|e r]]; try discriminate B.
      destruct (loaded e) eqn:Lo; [|discriminate B]. destruct (valid_name n) eqn:V; [|discriminate B]. cbn [negb] in B.
      assert (r = []) by congruence. assert (cmd = ALabel n e t) by congruence. subst r. exists n, v, e. apply loaded_iff in Lo. auto. }
    destruct c; cbn [arch_table In] in I.
    - destruct I.
    - destruct I as [I|[I|[I|[I|[I|[]]]]]]; (assert (name = _) by (symmetry; exact (f_equal fst I))); (assert (h = _) by (symmetry; exact (f_equal snd I))); cbn [fst snd] in *; subst name h; clear I.
      + cbn [acall] in A. assert (l_args l = []) as -> by congruence. assert (cmd = AIgnoreDelay) as -> by congruence. constructor.
      + cbn [acall] in A. assert (l_args l = []) as -> by congruence. assert (cmd = AFixLoadDelay) as -> by congruence. constructor.
      + cbn [acall] in A. apply acall_list in A. destruct A as (B & _ & [(a & E)|(a & b & E)]); rewrite E in B |- *; unfold mips_loadelf in B;
          destruct (evaluateString text_of a true) as [f|] eqn:P; try discriminate B; apply spelled_eval in P.
        * assert (cmd = ALoadElf f None) as -> by congruence. constructor. exact P.
        * destruct (evaluateString text_of b true) as [g|] eqn:Q; try discriminate B. apply spelled_eval in Q.
          assert (cmd = ALoadElf f (Some g)) as -> by congruence. constructor; assumption.
      + apply IM; [left; auto | left; reflexivity].
      + apply IM; [left; auto | right; left; reflexivity].
    - destruct I as [I|[I|[I|[I|[I|[I|[]]]]]]]; (assert (name = _) by (symmetry; exact (f_equal fst I))); (assert (h = _) by (symmetry; exact (f_equal snd I))); cbn [fst snd] in *; subst name h; clear I.
      + cbn [acall] in A. assert (l_args l = []) as -> by congruence. assert (cmd = AState false) as -> by congruence. constructor.
      + cbn [acall] in A. assert (l_args l = []) as -> by congruence. assert (cmd = AState true) as -> by congruence. constructor.
      + cbn [acall] in A. assert (l_args l = []) as -> by congruence. assert (cmd = APool) as -> by congruence. constructor.
      + cbn [acall] in A. unfold arm_msg in A. destruct (l_args l) as [|a r]; cbn [next_expression] in A; [discriminate A|].
        destruct (loaded a) eqn:Lo; [|discriminate A]. assert (r = []) as -> by congruence. assert (cmd = AMessage a) as -> by congruence.
        constructor. apply loaded_iff, Lo.
      + destruct (LB false A) as (n & v & a & -> & V & R & ->). constructor; assumption.
      + destruct (LB true A) as (n & v & a & -> & V & R & ->). constructor; assumption.
    - destruct I as [I|[I|[]]]; (assert (name = _) by (symmetry; exact (f_equal fst I))); (assert (h = _) by (symmetry; exact (f_equal snd I))); cbn [fst snd] in *; subst name h; clear I.
      + apply IM; [right; auto | left; reflexivity].
      + apply IM; [right; auto | right; left; reflexivity].
  Qed.

  Lemma line_iff : forall c name l cmd, reads c name l = AGives cmd <-> l_closed l = true /\ says c name (l_args l) cmd.
  Proof.
    intros c name l cmd. split; [apply from_parser|]. intros (C & S). apply to_parser in S. destruct l as [args closed]. cbn [l_closed l_args] in *. subst closed. exact S.
  Qed.

  Lemma unknown_iff : forall c name l, reads c name l = AUnknown <-> ~ In name (arch_names c).
  Proof.
    intros c name l. assert (T : map fst (arch_table c) = arch_names c) by (destruct c; reflexivity). rewrite <- T. unfold arch_line.
    destruct (find _ _) as [[n h]|] eqn:F.
    - split.
      + destruct (acall _ _ _ _ _ _) as [errs|e rest|k rest]; try discriminate. destruct (match rest with [] => _ | _ => _ end); discriminate.
      + intros N. exfalso. apply N. apply find_some in F. destruct F as (F & E). apply String.eqb_eq in E. cbn [fst] in E. subst n.
        apply in_map_iff. exists (name, h). auto.
    - split; [|reflexivity]. intros _ I. apply in_map_iff in I. destruct I as ((n & h) & E & I). cbn [fst] in E. subst n.
      pose proof (find_none _ _ F _ I) as X. cbn [fst] in X. rewrite String.eqb_refl in X. discriminate X.
  Qed.

  Lemma reported : forall c name l errs, reads c name l = AReported errs -> errs <> [].
  Proof.
    intros c name l errs. unfold arch_line. destruct (find _ _) as [[n h]|]; [|discriminate].
    destruct (acall _ _ _ _ _ _) as [es|e rest|k rest].
    - intros E. assert (X : errs = map ADir (match es with [] => [EDirective] | _ => es end)) by congruence. subst errs. destruct es; discriminate.
    - intros E. assert (X : errs = e :: if (match rest with [] => l_closed l | _ => false end) then [] else [ADir EUnterminated]) by congruence. subst errs. discriminate.
    - destruct (match rest with [] => _ | _ => _ end); [discriminate|]. intros E. assert (X : errs = [ADir EUnterminated]) by congruence. subst errs. discriminate.
  Qed.

  Lemma other_reported : forall c name l, In name (arch_names c) -> ~ (l_closed l = true /\ exists cmd, says c name (l_args l) cmd) ->
    exists errs, reads c name l = AReported errs /\ errs <> [].
  Proof.
    intros c name l I N. destruct (reads c name l) as [|errs|cmd] eqn:E.
    - apply unknown_iff in E. destruct (E I).
    - exists errs. split; [reflexivity | exact (reported _ _ _ _ E)].
    - exfalso. apply N. apply line_iff in E. destruct E as (C & S). eauto.
  Qed.
End Texts.
