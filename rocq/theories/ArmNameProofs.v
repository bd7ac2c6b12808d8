(** ARM mnemonics. *)

Require Import ZArith Lia Bool List String Ascii.
Require Import Verif.Ints Verif.ExprModel Verif.ParseModel Verif.ArmModel Verif.ArmLineModel Verif.ArmRowProofs Verif.ArmLineSpec.
Import ListNotations.
Local Open Scope Z_scope.

(** All spellings of a mnemonic. *)
Definition extend {A : Type} (l : list (string * A)) (f : A -> said -> said) (r : list (string * said)) : list (string * said) :=
  flat_map (fun na => map (fun su => (fst na ++ fst su, f (snd na) (snd su))%string) r) l.
Fixpoint words (t : string) : list (string * said) :=
  match t with
  | EmptyString => [(""%string, mkSaid 14 0 false false false)]
  | String c t' =>
      let r := words t' in
      if Ascii.eqb c "C" then extend condition_names (fun a u => mkSaid a (w_mode u) (w_s u) (w_x u) (w_y u)) r
      else if Ascii.eqb c "S" then extend [(""%string, false); ("s"%string, true)] (fun a u => mkSaid (w_c u) (w_mode u) a (w_x u) (w_y u)) r
      else if Ascii.eqb c "A" then extend mode_names (fun a u => mkSaid (w_c u) a (w_s u) (w_x u) (w_y u)) r
      else if Ascii.eqb c "X" then extend half_names (fun a u => mkSaid (w_c u) (w_mode u) (w_s u) a (w_y u)) r
      else if Ascii.eqb c "Y" then extend half_names (fun a u => mkSaid (w_c u) (w_mode u) (w_s u) (w_x u) a) r
      else map (fun su => (String c (fst su), snd su)) r
  end%char.
Lemma in_extend {A : Type} (l : list (string * A)) f r s u :
  In (s, u) (extend l f r) <-> exists n a s' u', In (n, a) l /\ In (s', u') r /\ s = (n ++ s')%string /\ u = f a u'.
Proof.
  unfold extend. rewrite in_flat_map. split.
  - intros ((n & a) & H1 & H2). rewrite in_map_iff in H2. destruct H2 as ((s' & u') & E & H2).
    cbn [fst snd] in E. exists n, a, s', u'. injection E as <- <-. auto.
  - intros (n & a & s' & u' & H1 & H2 & -> & ->). exists (n, a). split; [exact H1|].
    rewrite in_map_iff. exists (s', u'). auto.
Qed.
Lemma letter_cases c : letter c = true ->
  Ascii.eqb c "C" = false /\ Ascii.eqb c "S" = false /\ Ascii.eqb c "A" = false /\ Ascii.eqb c "X" = false /\ Ascii.eqb c "Y" = false.
Proof.
  unfold letter. intros H. apply negb_true_iff in H. rewrite !orb_false_iff in H. tauto.
Qed.
Lemma spells_words t s u : spells t s u -> In (s, u) (words t).
Proof.
  induction 1 as [|c t s u L H IH|n c t s u I H IH|b t s u H IH|n m t s u I H IH|n b t s u I H IH|n b t s u I H IH].
  - left. reflexivity.
  - cbn [words]. destruct (letter_cases c L) as (-> & -> & -> & -> & ->). apply in_map_iff. exists (s, u). auto.
  - change (In ((n ++ s)%string, mkSaid c (w_mode u) (w_s u) (w_x u) (w_y u))
      (extend condition_names (fun a u => mkSaid a (w_mode u) (w_s u) (w_x u) (w_y u)) (words t))).
    apply in_extend. exists n, c, s, u. auto.
  - change (In (((if b then "s" else "") ++ s)%string, mkSaid (w_c u) (w_mode u) b (w_x u) (w_y u))
      (extend [(""%string, false); ("s"%string, true)] (fun a u => mkSaid (w_c u) (w_mode u) a (w_x u) (w_y u)) (words t))).
    apply in_extend. exists (if b then "s" else "")%string, b, s, u. split; [destruct b; cbn; auto|]. auto.
  - change (In ((n ++ s)%string, mkSaid (w_c u) m (w_s u) (w_x u) (w_y u))
      (extend mode_names (fun a u => mkSaid (w_c u) a (w_s u) (w_x u) (w_y u)) (words t))).
    apply in_extend. exists n, m, s, u. auto.
  - change (In ((n ++ s)%string, mkSaid (w_c u) (w_mode u) (w_s u) b (w_y u))
      (extend half_names (fun a u => mkSaid (w_c u) (w_mode u) (w_s u) a (w_y u)) (words t))).
    apply in_extend. exists n, b, s, u. auto.
  - change (In ((n ++ s)%string, mkSaid (w_c u) (w_mode u) (w_s u) (w_x u) b)
      (extend half_names (fun a u => mkSaid (w_c u) (w_mode u) (w_s u) (w_x u) a) (words t))).
    apply in_extend. exists n, b, s, u. auto.
Qed.

(** What the parser returns for suffixes: without a place for a condition it says 0. *)
Definition suffixes_of (t : string) (u : said) : suffixes :=
  mkSuf (if has_char "C" t then w_c u else 0) (w_mode u) (w_s u) (w_x u) (w_y u).

Lemma decode_words t : forall s u0 u', decode_name t s u0 = Some u' -> exists u, spells t s u.
Proof.
  induction t as [|k t IH]; intros s u0 u' H; cbn [decode_name] in H.
  - destruct s; [|discriminate]. eexists. constructor.
  - destruct (Ascii.eqb k "C") eqn:EC.
    { apply Ascii.eqb_eq in EC. subst k. unfold decodeCondition in H.
      assert (G : exists n c s', In (n, c) condition_names /\ s = (n ++ s')%string /\
                  exists v, decode_name t s' v = Some u').
      { destruct s as [|a [|b r]]; [exists ""%string, 14, ""%string|exists ""%string, 14, (String a "")|];
          try (split; [left; reflexivity|split; [reflexivity|eexists; exact H]]).
        destruct (condition_of a b) as [c|] eqn:C.
        - exists (String a (String b "")), c, r. split; [|split; [reflexivity|eexists; exact H]].
          clear - C. unfold condition_of in C. cbv zeta beta in C.
          repeat match type of C with (if ?t then _ else _) = _ =>
            let E1 := fresh in let E2 := fresh in
            destruct t eqn:E1; [apply andb_true_iff in E1; destruct E1 as (E1 & E2); apply Ascii.eqb_eq in E1; apply Ascii.eqb_eq in E2;
              subst; injection C as <-; cbn; tauto|clear E1] end; try discriminate.
        - exists ""%string, 14, (String a (String b r)). split; [left; reflexivity|split; [reflexivity|eexists; exact H]]. }
      destruct G as (n & c & s' & I & -> & v & D). destruct (IH _ _ _ D) as (u & Hu).
      eexists. apply (sp_cond n c); eassumption. }
    destruct (Ascii.eqb k "S") eqn:ES.
    { apply Ascii.eqb_eq in ES. subst k. destruct s as [|a r].
      - destruct (IH _ _ _ H) as (u & Hu). eexists. exact (sp_s false t "" u Hu).
      - destruct (Ascii.eqb_spec a "s") as [->|N]; destruct (IH _ _ _ H) as (u & Hu); eexists.
        + exact (sp_s true t r u Hu).
        + exact (sp_s false t (String a r) u Hu). }
    destruct (Ascii.eqb k "A") eqn:EA.
    { apply Ascii.eqb_eq in EA. subst k. destruct s as [|a [|b r]]; try discriminate.
      destruct (mode_of a b) as [m|] eqn:M; [|discriminate]. destruct (IH _ _ _ H) as (u & Hu). eexists.
      refine (sp_mode (String a (String b "")) m t r u _ Hu). clear - M. unfold mode_of in M. cbv zeta beta in M.
      repeat match type of M with (if ?t then _ else _) = _ =>
            let E1 := fresh in let E2 := fresh in
            destruct t eqn:E1; [apply andb_true_iff in E1; destruct E1 as (E1 & E2); apply Ascii.eqb_eq in E1; apply Ascii.eqb_eq in E2;
              subst; injection M as <-; cbn; tauto|clear E1] end; try discriminate. }
    destruct (Ascii.eqb k "X") eqn:EX.
    { apply Ascii.eqb_eq in EX. subst k. destruct s as [|a r]; try discriminate.
      destruct (xy_of a) as [x|] eqn:M; [|discriminate]. destruct (IH _ _ _ H) as (u & Hu). eexists.
      refine (sp_x (String a "") x t r u _ Hu). clear - M. unfold xy_of in M.
      destruct (Ascii.eqb_spec a "t"); [subst; injection M as <-; cbn; tauto|].
      destruct (Ascii.eqb_spec a "b"); [subst; injection M as <-; cbn; tauto|discriminate]. }
    destruct (Ascii.eqb k "Y") eqn:EY.
    { apply Ascii.eqb_eq in EY. subst k. destruct s as [|a r]; try discriminate.
      destruct (xy_of a) as [x|] eqn:M; [|discriminate]. destruct (IH _ _ _ H) as (u & Hu). eexists.
      refine (sp_y (String a "") x t r u _ Hu). clear - M. unfold xy_of in M.
      destruct (Ascii.eqb_spec a "t"); [subst; injection M as <-; cbn; tauto|].
      destruct (Ascii.eqb_spec a "b"); [subst; injection M as <-; cbn; tauto|discriminate]. }
    destruct s as [|a r]; try discriminate. destruct (Ascii.eqb_spec k a) as [->|]; [|discriminate].
    destruct (IH _ _ _ H) as (u & Hu). exists u. apply sp_letter; [|exact Hu].
    unfold letter. rewrite EC, ES, EA, EX, EY. reflexivity.
Qed.

(** The table. *)
Definition said_eqb (a b : suffixes) : bool :=
  (u_c a =? u_c b) && (u_a a =? u_a b) && Bool.eqb (u_s a) (u_s b) && Bool.eqb (u_x a) (u_x b) && Bool.eqb (u_y a) (u_y b).
Lemma said_eqb_ok a b : said_eqb a b = true -> a = b.
Proof.
  unfold said_eqb. rewrite !andb_true_iff, !Z.eqb_eq. intros ((((A & B) & C) & D) & E).
  apply eqb_prop in C. apply eqb_prop in D. apply eqb_prop in E. destruct a, b. cbn in *. congruence.
Qed.
Definition names : list string := nodup string_dec (map op_name ArmOpcodes).
Definition name_ok (t : string) : bool :=
  forallb (fun su => match decode_name t (fst su) (mkSuf 0 0 false false false) with
                     | Some u => said_eqb u (suffixes_of t (snd su))
                     | None => false
                     end) (words t).
Lemma names_ok : forallb name_ok names = true.
Proof. vm_compute. reflexivity. Qed.
Lemma row_name o : In o ArmOpcodes -> In (op_name o) names.
Proof. intros H. apply nodup_In, in_map, H. Qed.

Lemma decode_complete o s u : In o ArmOpcodes -> spells (op_name o) s u ->
  decodeArmOpcode s o = Some (suffixes_of (op_name o) u).
Proof.
  intros Hin H. pose proof names_ok as N. rewrite forallb_forall in N. specialize (N _ (row_name o Hin)).
  unfold name_ok in N. rewrite forallb_forall in N. specialize (N _ (spells_words _ _ _ H)). cbn [fst snd] in N.
  unfold decodeArmOpcode. destruct (decode_name _ _ _) as [v|]; [|discriminate]. f_equal. apply said_eqb_ok. exact N.
Qed.
Lemma decode_sound o s v : In o ArmOpcodes -> decodeArmOpcode s o = Some v ->
  exists u, spells (op_name o) s u /\ v = suffixes_of (op_name o) u.
Proof.
  intros Hin H. destruct (decode_words _ _ _ _ H) as (u & Hu). exists u. split; [exact Hu|].
  rewrite (decode_complete o s u Hin Hu) in H. congruence.
Qed.

(** * One reading of each text *)

Definition same_said (a b : said) : bool :=
  (w_c a =? w_c b) && (w_mode a =? w_mode b) && Bool.eqb (w_s a) (w_s b) && Bool.eqb (w_x a) (w_x b) && Bool.eqb (w_y a) (w_y b).
Lemma same_said_ok a b : same_said a b = true -> a = b.
Proof.
  unfold same_said. rewrite !andb_true_iff, !Z.eqb_eq. intros ((((A & B) & C) & D) & E).
  apply eqb_prop in C. apply eqb_prop in D. apply eqb_prop in E. destruct a, b. cbn in *. congruence.
Qed.
Definition one_ok (t : string) : bool :=
  forallb (fun su => forallb (fun t' =>
    match decode_name t' (fst su) (mkSuf 0 0 false false false) with
    | Some _ => String.eqb (bare t) (bare t') &&
                forallb (fun su' => implb (String.eqb (fst su) (fst su')) (same_said (snd su) (snd su'))) (words t')
    | None => true
    end) names) (words t).
Lemma one_reading : forallb one_ok names = true.
Proof. vm_compute. reflexivity. Qed.
Lemma name_unique o o' s u u' : In o ArmOpcodes -> In o' ArmOpcodes ->
  spells (op_name o) s u -> spells (op_name o') s u' -> bare (op_name o) = bare (op_name o') /\ u = u'.
Proof.
  intros I I' H H'. pose proof one_reading as N. rewrite forallb_forall in N. specialize (N _ (row_name o I)).
  unfold one_ok in N. rewrite forallb_forall in N. specialize (N _ (spells_words _ _ _ H)).
  rewrite forallb_forall in N. specialize (N _ (row_name o' I')). cbn [fst snd] in N.
  pose proof (decode_complete o' s u' I' H') as D. unfold decodeArmOpcode in D. rewrite D in N.
  apply andb_true_iff in N. destruct N as (N1 & N2). apply String.eqb_eq in N1. split; [exact N1|].
  rewrite forallb_forall in N2. specialize (N2 _ (spells_words _ _ _ H')). cbn [fst snd] in N2.
  rewrite String.eqb_refl in N2. apply same_said_ok. exact N2.
Qed.
