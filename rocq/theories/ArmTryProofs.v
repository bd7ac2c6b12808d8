(** ARM lines: the row that is chosen, and from the tokens of a line to the decoded instruction. *)

Require Import ZArith Lia Bool List String Ascii.
Require Import ZifyBool.
Require Import Verif.Ints Verif.Res Verif.ExprModel Verif.ParseModel Verif.FloatModel Verif.ArmModel Verif.ArmLineModel
  Verif.ArmSpec Verif.ArmIface Verif.ArmWordSpec Verif.ArmWordIface Verif.ArmLineSpec Verif.ArmRowProofs
  Verif.ArmWordProofs2 Verif.ArmWordProofs6
  Verif.ArmNameProofs Verif.ArmOperandProofs Verif.ArmLayoutProofs Verif.ArmUsesProofs Verif.ArmLineProofs Verif.ArmRowLineProofs.
Import ListNotations.
Local Open Scope Z_scope.

(** * An operand list is read in one way *)

Section Once.
  Variable isfun : string -> bool.
  Variables file section : Z.
  Notation takes := (takes isfun file section).
  Notation chain := (chain isfun file section).
  Notation lays := (lays isfun file section).

  Lemma number_once ts e r e' r' : number isfun file section ts e r -> number isfun file section ts e' r' -> e = e' /\ r = r'.
  Proof. intros (_ & H) (_ & H'). rewrite H in H'. injection H' as <- <-. auto. Qed.
  Lemma amount_once imm ts a r a' r' : shift_by isfun file section imm ts a r -> shift_by isfun file section imm ts a' r' ->
    a = a' /\ r = r'.
  Proof.
    intros H H'. pose proof (amount_complete _ _ _ _ _ _ _ H no_vars) as E.
    rewrite (amount_complete _ _ _ _ _ _ _ H' no_vars) in E. injection E as E ->. split; [|reflexivity].
    pose proof (f_equal (fun v => v_num v VByReg) E) as B. pose proof (f_equal (fun v => v_num v VShiftReg) E) as R.
    pose proof (f_equal (fun v => v_exp v XShift) E) as X.
    destruct a, a'; try discriminate B; cbn in R, X; congruence.
  Qed.
  Lemma shift_once imm ts s r s' r' : shifted isfun file section imm ts s r -> shifted isfun file section imm ts s' r' ->
    s = s' /\ r = r'.
  Proof.
    intros H H'. pose proof (shift_complete _ _ _ _ _ _ _ H no_vars) as E.
    rewrite (shift_complete _ _ _ _ _ _ _ H' no_vars) in E. injection E as E ->. split; [|reflexivity].
    pose proof (f_equal (fun v => v_num v VUseShift) E) as U. pose proof (f_equal (fun v => v_num v VShiftType) E) as T.
    pose proof (f_equal (fun v => v_num v VByReg) E) as B. pose proof (f_equal (fun v => v_num v VShiftReg) E) as R.
    pose proof (f_equal (fun v => v_exp v XShift) E) as X.
    destruct s as [(ty & [a|a])|], s' as [(ty' & [a'|a'])|]; try discriminate U; try discriminate B; cbn in T, R, X; congruence.
  Qed.
  Lemma var_of_inj s s' : var_of s = var_of s' -> s = s'.
  Proof. destruct s, s'; intros E; try discriminate E; reflexivity. Qed.
  Lemma cvar_of_inj s s' : cvar_of s = cvar_of s' -> s = s'.
  Proof. destruct s, s'; intros E; try discriminate E; reflexivity. Qed.
  Lemma takes_once it ts p r p' r' : takes it ts p r -> takes it ts p' r' -> p = p' /\ r = r'.
  Proof.
    intros H H'. assert (R : r = r').
    { pose proof (take_complete _ _ _ _ _ _ _ H no_vars) as E.
      rewrite (take_complete _ _ _ _ _ _ _ H' no_vars) in E. injection E as _ E. congruence. }
    split; [|exact R]. subst r'. destruct it; cbn [ArmLayoutProofs.takes] in H, H'.
    - destruct H as (s & n & x & -> & -> & A & _ & ->). destruct H' as (s' & n' & x' & B & C & D & _ & ->).
      injection C as <-. apply var_of_inj in B. subst. apply reg_lookup in A. apply reg_lookup in D. congruence.
    - destruct H as (s & n & x & -> & _ & -> & A & ->). destruct H' as (s' & n' & x' & B & _ & C & D & ->).
      injection C as <-. apply cvar_of_inj in B. subst. apply cop_lookup in A. apply cop_lookup in D. congruence.
    - destruct H as [(-> & ->)|(N & -> & ->)], H' as [(E & ->)|(N' & E & ->)]; try reflexivity.
      + exfalso. apply N'. reflexivity.
      + exfalso. apply N. rewrite E at 1. reflexivity.
    - destruct H as [(-> & ->)|(N & -> & ->)], H' as [(E & ->)|(N' & E & ->)]; try reflexivity.
      + exfalso. apply N'. reflexivity.
      + exfalso. apply N. rewrite E at 1. reflexivity.
    - destruct H as (s & n & f & j & -> & A & _ & ->). destruct H' as (s' & n' & f' & j' & C & D & _ & ->). injection C as <-.
      apply psr_complete in A. apply psr_complete in D. destruct short; congruence.
    - destruct H as (l & m & A & B & ->), H' as (l' & m' & A' & B' & ->).
      apply (list_mask_of _ _ (items_range _ _ _ A)) in B. apply (list_mask_of _ _ (items_range _ _ _ A')) in B'. subst.
      pose proof (list_complete _ _ _ A 0) as E. rewrite (list_complete _ _ _ A' 0) in E. rewrite !Z.lor_0_l in E. congruence.
    - destruct H as (s & A & ->), H' as (s' & A' & ->). destruct (shift_once _ _ _ _ _ _ A A'). congruence.
    - destruct H as (e & A & ->), H' as (e' & A' & ->). destruct (number_once _ _ _ _ _ A A'). congruence.
    - destruct H as (n & x & -> & A & ->). destruct H' as (n' & x' & C & D & ->).
      injection C as <-. apply cp_lookup in A. apply cp_lookup in D. congruence.
    - destruct H as (e & A & ->), H' as (e' & A' & ->). destruct (number_once _ _ _ _ _ A A'). congruence.
    - destruct H as (e & A & ->), H' as (e' & A' & ->). destruct (number_once _ _ _ _ _ A A'). congruence.
    - destruct H as (a & A & ->), H' as (a' & A' & ->). destruct (amount_once _ _ _ _ _ _ A A'). congruence.
    - destruct H as [(-> & ->)|[(-> & ->)|(N & N2 & -> & ->)]], H' as [(E & ->)|[(E & ->)|(N' & N2' & E & ->)]]; try reflexivity; try discriminate E.
      + exfalso. apply N2'. reflexivity.
      + exfalso. apply N2. rewrite E at 1. reflexivity.
    - destruct H as (t & _ & -> & _), H' as (t' & _ & -> & _). reflexivity.
  Qed.
  Lemma chain_once its : forall ts ps r ps' r', chain its ts ps r -> chain its ts ps' r' -> ps = ps' /\ r = r'.
  Proof.
    induction its as [|it its IH]; intros ts ps r ps' r' H H'.
    - inversion H; subst. inversion H'; subst. auto.
    - inversion H as [|? ? ? p ts1 ps1 ? T C|? ? ? ts1 ? ? T C]; subst;
      inversion H' as [|? ? ? p' ts2 ps2 ? T' C'|? ? ? ts2 ? ? T' C']; subst;
      destruct (takes_once _ _ _ _ _ _ T T') as (E & <-); try discriminate E; destruct (IH _ _ _ _ _ C C') as (<- & <-); split; congruence.
  Qed.
  Lemma lays_once m ts ps r ps' r' : lays m ts ps r -> lays m ts ps' r' -> ps = ps' /\ r = r'.
  Proof. intros H H'. apply (chain_once (items false m) ts); apply lays_chain; assumption. Qed.
  Lemma reads_once arch ts o u ps r u' ps' r' : In o ArmOpcodes -> reads isfun file section arch ts o u ps r ->
    reads isfun file section arch ts o u' ps' r' -> u = u' /\ ps = ps' /\ r = r'.
  Proof.
    intros I (_ & n & ts1 & -> & S & L) (_ & n' & ts2 & E & S' & L'). injection E as <- <-.
    destruct (name_unique _ _ _ _ _ I I S S') as (_ & <-). destruct (lays_once _ _ _ _ _ _ L L') as (<- & <-). auto.
  Qed.
  Lemma first_once arch ts o u ps r o' u' ps' r' : first_reading isfun file section ArmOpcodes arch ts o u ps r ->
    first_reading isfun file section ArmOpcodes arch ts o' u' ps' r' -> o = o' /\ u = u' /\ ps = ps' /\ r = r'.
  Proof.
    intros (pre & post & E & R & N) (pre' & post' & E' & R' & N').
    assert (o = o').
    { clear - E E' R R' N N'. rewrite E in E'. clear E. revert pre' N' E'. induction pre as [|x pre IH]; intros pre' N' E'.
      - destruct pre' as [|y pre']; cbn [app] in E'; injection E' as <- E'; [reflexivity|].
        exfalso. eapply N'; [left; reflexivity|exact R].
      - destruct pre' as [|y pre']; cbn [app] in E'; injection E' as <- E'.
        + exfalso. eapply N; [left; reflexivity|exact R'].
        + apply (IH (fun o u p r H => N o u p r (or_intror H)) pre' (fun o u p r H => N' o u p r (or_intror H)) E'). }
    subst o'. split; [reflexivity|]. apply (reads_once arch ts o u ps r u' ps' r'); try assumption.
    rewrite E. apply in_or_app. right. left. reflexivity.
  Qed.
End Once.

(** * The row *)

Section Try.
  Variable isfun : string -> bool.
  Variables file section : Z.
  Notation reads := (reads isfun file section).
  Notation try_rows := (try_rows isfun file section).

  Lemma params_fine o v ts : In o ArmOpcodes -> v_ok v -> fine (parseArmParameters isfun file section (op_mask o) v ts).
  Proof. intros I V. unfold parseArmParameters. apply items_fine; [apply row_good, I|]. apply (start_ok v V). Qed.
  Lemma no_read arch name o ts u ps r : In o ArmOpcodes ->
    (has o ARM_ARM9 && is_gba arch = true \/ decodeArmOpcode name o = None \/
     exists v v', parseArmParameters isfun file section (op_mask o) v ts = Miss v') ->
    ~ reads arch (TIdent name :: ts) o u ps r.
  Proof.
    intros I H (A & n & ts1 & E & S & L). injection E as <- <-. destruct H as [H|[H|(v & v' & H)]].
    - apply A. apply andb_true_iff in H. destruct H as (H & G). split; [exact H|]. destruct arch; try discriminate G. reflexivity.
    - rewrite (decode_complete _ _ _ I S) in H. discriminate.
    - unfold parseArmParameters in H. rewrite (layout_complete _ _ _ _ _ _ _ _ L) in H. discriminate.
  Qed.
  Lemma rows_spec arch name ts : forall rows pre v, ArmOpcodes = pre ++ rows -> v_ok v ->
    (forall o u ps r, In o pre -> ~ reads arch (TIdent name :: ts) o u ps r) ->
    match try_rows arch name rows v ts with
    | LOpcode o s v' r => exists u ps v0, first_reading isfun file section ArmOpcodes arch (TIdent name :: ts) o u ps r /\
        In o ArmOpcodes /\ spells (op_name o) name u /\ lays isfun file section (op_mask o) ts ps r /\
        s = suffixes_of (op_name o) u /\ v' = fill (items false (op_mask o)) ps (start_vars v0) /\ v_ok v'
    | LError => forall o u ps r, In o ArmOpcodes -> ~ reads arch (TIdent name :: ts) o u ps r
    | LCrash => exists n, In (TIdent n) ts /\ long_digits n
    end.
  Proof.
    induction rows as [|o rows IH]; intros pre v E V N; cbn [ArmLineModel.try_rows].
    - rewrite E, app_nil_r. exact N.
    - assert (I : In o ArmOpcodes) by (rewrite E; apply in_or_app; right; left; reflexivity).
      assert (next : forall v', v_ok v' -> (forall u ps r, ~ reads arch (TIdent name :: ts) o u ps r) ->
        match try_rows arch name rows v' ts with
        | LOpcode o s v' r => exists u ps v0, first_reading isfun file section ArmOpcodes arch (TIdent name :: ts) o u ps r /\
            In o ArmOpcodes /\ spells (op_name o) name u /\ lays isfun file section (op_mask o) ts ps r /\
            s = suffixes_of (op_name o) u /\ v' = fill (items false (op_mask o)) ps (start_vars v0) /\ v_ok v'
        | LError => forall o u ps r, In o ArmOpcodes -> ~ reads arch (TIdent name :: ts) o u ps r
        | LCrash => exists n, In (TIdent n) ts /\ long_digits n
        end).
      { intros v' V' M. apply (IH (pre ++ [o])); [rewrite <- app_assoc; exact E|exact V'|].
        intros o1 u ps r H. apply in_app_or in H. destruct H as [H|[<-|[]]]; [apply N, H|apply M]. }
      destruct (has o ARM_ARM9 && is_gba arch) eqn:G.
      { apply next; [exact V|]. intros u ps r. apply no_read; auto. }
      destruct (decodeArmOpcode name o) as [s|] eqn:D.
      2:{ apply next; [exact V|]. intros u ps r. apply no_read; auto. }
      pose proof (params_fine o v ts I V) as F.
      destruct (parseArmParameters _ _ _ (op_mask o) v ts) as [v' r|v'|] eqn:P; cbn [fine] in F.
      + destruct (decode_sound _ _ _ I D) as (u & S & ->). pose proof masks_ok as M. rewrite forallb_forall in M. specialize (M _ I).
        unfold parseArmParameters in P. destruct (layout_sound _ _ _ _ _ _ _ _ M P) as (ps & L & ->).
        exists u, ps, v. split; [|split; [exact I|split; [exact S|split; [exact L|split; [reflexivity|split; [reflexivity|exact F]]]]]].
        exists pre, rows. split; [exact E|]. split; [|intros o1 u1 ps1 r1 H; apply N, H].
        split; [|exists name, ts; auto]. intros (A & ->). rewrite A in G. discriminate G.
      + apply next; [exact F|]. intros u ps r. apply no_read; eauto.
      + unfold parseArmParameters in P. apply layout_crash in P. exact P.
  Qed.
  Lemma opcode_spec arch ts :
    match parseArmOpcode isfun file section arch ts with
    | LOpcode o s v' r => exists name ts' u ps v0, ts = TIdent name :: ts' /\
        first_reading isfun file section ArmOpcodes arch ts o u ps r /\
        In o ArmOpcodes /\ spells (op_name o) name u /\ lays isfun file section (op_mask o) ts' ps r /\
        s = suffixes_of (op_name o) u /\ v' = fill (items false (op_mask o)) ps (start_vars v0) /\ v_ok v'
    | LError => forall o u ps r, In o ArmOpcodes -> ~ reads arch ts o u ps r
    | LCrash => exists n, In (TIdent n) ts /\ long_digits n
    end.
  Proof.
    unfold parseArmOpcode.
    assert (bad : (forall name r, ts <> TIdent name :: r) -> forall o u ps r, In o ArmOpcodes -> ~ reads arch ts o u ps r).
    { intros X o u ps r _ (_ & n & ts' & E & _). apply (X _ _ E). }
    destruct ts as [|t ts]; [apply bad; discriminate|]. destruct t; try (apply bad; discriminate). clear bad.
    match goal with |- context [TIdent ?x :: ts] => rename x into name end.
    pose proof (rows_spec arch name ts ArmOpcodes [] no_vars eq_refl no_vars_ok (fun _ _ _ _ H => False_ind _ H)) as H.
    destruct (try_rows arch name ArmOpcodes no_vars ts) as [o s v' r| |].
    - destruct H as (u & ps & v0 & H). exists name, ts, u, ps, v0. split; [reflexivity|exact H].
    - exact H.
    - destruct H as (n & I & L). exists n. split; [right; exact I|exact L].
  Qed.
End Try.

(** * The line *)

Section Whole.
  Variable isfun : string -> bool.
  Variables file section : Z.
  Variable nan : Z.
  Variable ev : expr -> value.
  Variable arch : arm_arch.

  Definition line_claim (ts : list token) (addr pool : Z) : Prop :=
    match arm_line isfun file section arch nan ev ts addr pool with
    | ROk (w, lit) => exists o u ps r f q, first_reading isfun file section ArmOpcodes arch ts o u ps r /\
        arm_form (op_name o) (op_mask o) = Some f /\ asks nan ev arch u ps q /\
        forall q, asks nan ev arch u ps q -> arm_sane f q ->
          arm_fits f q addr pool (whole_imm ev ps) /\ exists a, arm_decode addr w = Some a /\ arm_means f q addr lit pool a
    | RErr => (forall o u ps r, In o ArmOpcodes -> ~ reads isfun file section arch ts o u ps r) \/
        exists o u ps r f, first_reading isfun file section ArmOpcodes arch ts o u ps r /\
          arm_form (op_name o) (op_mask o) = Some f /\
          forall q, asks nan ev arch u ps q -> arm_sane f q -> ~ arm_fits f q addr pool (whole_imm ev ps)
    | RUb => (exists n, In (TIdent n) ts /\ long_digits n) \/
        exists o u ps r f, first_reading isfun file section ArmOpcodes arch ts o u ps r /\
          arm_form (op_name o) (op_mask o) = Some f /\
          (f = FHalfAbs \/ exists q, asks nan ev arch u ps q /\
             forall q, asks nan ev arch u ps q -> arm_sane f q -> arm_undefined f q addr pool)
    end.
  Lemma arm_line_claim ts addr pool : addr mod 4 = 0 -> line_claim ts addr pool.
  Proof.
    intros Ha. unfold line_claim, arm_line. pose proof (opcode_spec isfun file section arch ts) as P.
    destruct (parseArmOpcode _ _ _ arch ts) as [o s v r| |]; [|left; exact P|left; exact P].
    destruct P as (name & ts' & u & ps & v0 & -> & F & I & Sp & L & -> & -> & V).
    destruct (row_form _ I) as (f & Hf).
    set (i := arm_input arch o (suffixes_of (op_name o) u) (fill (items false (op_mask o)) ps (start_vars v0))).
    set (e := arm_values nan ev (fill (items false (op_mask o)) ps (start_vars v0))).
    destruct (forallb _ _) eqn:A.
    2:{ right. exists o, u, ps, r, f. split; [exact F|]. split; [exact Hf|]. left.
        assert (D : {f = FHalfAbs} + {f <> FHalfAbs}) by (destruct f; (left; reflexivity) || (right; discriminate)).
        destruct D as [D|D]; [exact D|].
        assert (X := all_set isfun file section o f ts' ps r v0 I Hf L D). congruence. }
    clear A.
    assert (C : forall q, asks nan ev arch u ps q -> arm_sane f q -> exists q', same_on f q' q /\ word_claim i e addr pool f q' /\
                (takes_imm f = true -> int_imm (e_imm e) = whole_imm ev ps)).
    { intros q Q S.
      pose proof (full_same isfun file section nan ev arch o f u ts' ps r v0 I Hf L q Q) as FS.
      pose proof (full_agrees isfun file section nan ev arch o f u ts' ps r v0 I Hf L q Q) as FA.
      eexists. split; [apply same_sym, FS|]. split.
      - apply arm_word. split; [exact I|]. split; [exact Hf|]. split; [eapply the_line_wf; eassumption|].
        split; [exact FA|]. split; [eapply sane_same; eassumption|exact Ha].
      - apply (int_whole isfun file section nan ev o f ts' ps r v0 I Hf L). }
    pose proof (has_words isfun file section nan ev arch o f u ts' ps r v0 I Hf L addr pool) as W.
    change (arm_emit _ _ _ pool) with (arm_emit i addr e pool) in W. unfold word_claim in C.
    destruct (arm_emit i addr e pool) as [(w & lit)| |].
    - destruct (W ltac:(discriminate)) as (q & Q). exists o, u, ps, r, f, q. split; [exact F|]. split; [exact Hf|]. split; [exact Q|].
      intros q0 Q0 S0. destruct (C q0 Q0 S0) as (q' & Sm & (Fi & a & D & M) & Iw). split.
      + eapply fits_int; [exact Iw|]. eapply fits_same; [exact Sm|exact Fi].
      + exists a. split; [exact D|]. eapply means_same; [exact Sm|exact M].
    - right. exists o, u, ps, r, f. split; [exact F|]. split; [exact Hf|]. intros q0 Q0 S0 Fi.
      destruct (C q0 Q0 S0) as (q' & Sm & N & Iw). apply N. eapply fits_int; [intros T; symmetry; apply Iw, T|].
      eapply fits_same; [apply same_sym, Sm|exact Fi].
    - right. destruct (W ltac:(discriminate)) as (q & Q). exists o, u, ps, r, f. split; [exact F|]. split; [exact Hf|]. right.
      exists q. split; [exact Q|]. intros q0 Q0 S0. destruct (C q0 Q0 S0) as (q' & Sm & N & Iw). eapply undefined_same; eassumption.
  Qed.
End Whole.
