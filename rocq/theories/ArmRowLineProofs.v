(** ARM lines: the variables of a row stand for the operands that the line asks for. *)

Require Import ZArith Lia Bool List String Ascii.
Require Import ZifyBool.
Require Import Verif.Ints Verif.Res Verif.ExprModel Verif.ParseModel Verif.FloatModel Verif.ArmModel Verif.ArmLineModel
  Verif.ArmSpec Verif.ArmIface Verif.ArmWordSpec Verif.ArmWordIface Verif.ArmLineSpec Verif.ArmRowProofs
  Verif.ArmNameProofs Verif.ArmOperandProofs Verif.ArmLayoutProofs Verif.ArmUsesProofs Verif.ArmLineProofs.
Import ListNotations.
Local Open Scope Z_scope.

Lemma spells_range t s u : spells t s u -> 0 <= w_c u < 15 /\ 0 <= w_mode u < 8.
Proof.
  induction 1 as [|c t s u L H IH|n c t s u I H IH|b t s u H IH|n m t s u I H IH|n b t s u I H IH|n b t s u I H IH];
    cbn [w_c w_mode] in *; try assumption; try lia.
  - split; [|apply IH]. clear - I. cbn in I. in_cases I; lia.
  - split; [apply IH|]. clear - I. cbn in I. in_cases I; lia.
Qed.
Lemma spells_s t s u : spells t s u -> has_char "S" t = false -> w_s u = false.
Proof.
  induction 1 as [|c t s u L H IH|n c t s u I H IH|b t s u H IH|n m t s u I H IH|n b t s u I H IH|n b t s u I H IH];
    cbn [w_s has_char] in *; intros N; auto; try (apply IH; exact N).
  - apply IH. apply orb_false_iff in N. apply N.
  - discriminate.
Qed.

Definition start_vars (v : vars) : vars := set VUseShift 0 (set VPsr 0 (set VWriteback 0 (set VSignPlus 0 v))).
Lemma start_ok v : v_ok v -> v_ok (start_vars v).
Proof. intros V. unfold start_vars. repeat (apply set_ok; [|exact Logic.I]). exact V. Qed.

Section Row.
  Variable isfun : string -> bool.
  Variables file section : Z.
  Variable nan : Z.
  Variable ev : expr -> value.
  Variable arch : arm_arch.
  Variables (o : arm_opcode) (f : aform) (name : string) (u : said) (ts : list token) (ps : list piece) (r : list token) (v0 : vars).
  Hypothesis Hin : In o ArmOpcodes.
  Hypothesis Hf : arm_form (op_name o) (op_mask o) = Some f.
  Hypothesis Hsp : spells (op_name o) name u.
  Hypothesis Hl : lays isfun file section (op_mask o) ts ps r.
  Notation v := (fill (items false (op_mask o)) ps (start_vars v0)).
  Hypothesis Hv : v_ok v.
  Notation its := (operands (items false (op_mask o))).
  Notation L := (pairs (items false (op_mask o)) ps).
  Notation i := (arm_input arch o (suffixes_of (op_name o) u) v).
  Notation e := (arm_values nan ev v).

  Lemma row_facts_line :
      distinct (map kind its) = true /\
      existsb is_shift_item its = takes_shift f /\ existsb is_wb_item its = takes_wb f /\
      existsb is_psr_item its = (match f with FBlock _ => true | _ => false end) /\
      existsb is_sign_item its = takes_sign f /\ existsb is_imm_item its = takes_imm f /\
      (takes_imm f = true -> bitlen its = Some (imm_len f)) /\
      (forall it, In it its -> match it with
                         | MShift imm => match f with FMem _ _ _ _ | FPld _ => imm = true | _ => True end
                         | MPseudoShift ty => match f with FMem _ _ _ _ | FPld _ => False | _ => True end
                         | _ => True
                         end) /\
      existsb is_op_item its = (match f with FCop _ _ _ => true | _ => false end) /\
      existsb is_inf_item its = (match f with FCop _ _ inf => inf | _ => false end) /\
      existsb is_imm_item its = has o ARM_IMMEDIATE /\ existsb is_op_item its = has o ARM_COPOP /\
      existsb is_inf_item its = has o ARM_COPINF /\
      (forall n, In n (needs f) -> provides o its n = true) /\
      (f <> FHalfAbs -> forall k, In k (reads_rest o) -> existsb (writes k) its = true \/ cleared k = true).
  Proof.
    pose proof lines_ok as H. rewrite forallb_forall in H. specialize (H _ Hin). unfold line_ok in H. cbv zeta in H. rewrite Hf in H.
    rewrite !andb_true_iff in H.
    destruct H as ((((((((((((((H1 & H2) & H3) & H4) & H5) & H6) & H7) & H8) & H9) & H10) & H11) & H12) & H13) & H14) & H15).
    repeat match goal with H : Bool.eqb _ _ = true |- _ => apply eqb_prop in H end.
    refine (conj H1 (conj H2 (conj H3 (conj H4 (conj H5 (conj H6 (conj _ (conj _ (conj H9 (conj H10 (conj H11 (conj H12 (conj H13 (conj _ _)))))))))))))).
    - intros T. rewrite T in H7. destruct (bitlen its) as [n|]; [|discriminate]. f_equal. lia.
    - intros it I. rewrite forallb_forall in H8. specialize (H8 _ I). cbv beta in H8.
      destruct it; try exact Logic.I; destruct f; try exact Logic.I; try assumption.
      all: rewrite andb_false_r in H8; discriminate.
    - intros n I. rewrite forallb_forall in H14. apply H14, I.
    - intros N k I. assert (X : forallb (fun k => existsb (writes k) its || cleared k) (reads_rest o) = true).
      { destruct f; try exact H15. contradiction N. reflexivity. }
      rewrite forallb_forall in X. specialize (X _ I). cbv beta in X. apply orb_true_iff in X. exact X.
  Qed.
  Lemma the_chain : chain isfun file section (items false (op_mask o)) ts ps r.
  Proof. apply lays_chain, Hl. Qed.
  Lemma v_putall : v = putall L (start_vars v0).
  Proof. apply (chain_pairs _ _ _ _ _ _ _ the_chain). Qed.
  Lemma L_ok : Forall ok_pair L.
  Proof. apply (chain_pairs _ _ _ _ _ _ _ the_chain). Qed.
  Lemma L_snd : map snd L = ps.
  Proof. apply (chain_pairs _ _ _ _ _ _ _ the_chain). Qed.
  Lemma L_fst : map fst L = its.
  Proof. apply (chain_pairs _ _ _ _ _ _ _ the_chain). Qed.
  Lemma L_kinds : map (fun ip => kind (fst ip)) L = map kind its.
  Proof. rewrite <- L_fst, map_map. reflexivity. Qed.
  Lemma L_effect it p : In (it, p) L -> ok_piece it p /\ effect it p v /\ In it its /\ In p ps.
  Proof.
    intros H. assert (O : ok_piece it p) by (apply (proj1 (Forall_forall _ _) L_ok _ H)).
    split; [exact O|]. split.
    - rewrite v_putall. apply putall_effect; [apply L_ok| |exact H]. rewrite L_kinds. apply distinct_ok, row_facts_line.
    - pose proof (in_map fst _ _ H) as X. pose proof (in_map snd _ _ H) as Y. rewrite L_fst in X. rewrite L_snd in Y. split; assumption.
  Qed.
  Lemma item_of P : existsb P its = true -> exists it p, P it = true /\ ok_piece it p /\ effect it p v /\ In p ps.
  Proof.
    intros H. apply existsb_exists in H. destruct H as (it & I & E). rewrite <- L_fst in I. apply in_map_iff in I.
    destruct I as ((it' & p) & X & I). cbn [fst] in X. subst it'. apply L_effect in I. exists it, p. tauto.
  Qed.
  Lemma piece_of p : In p ps -> exists it, ok_piece it p /\ effect it p v /\ In it its.
  Proof.
    intros H. pose proof L_snd as S. rewrite <- S in H at 1. clear S. apply in_map_iff in H. destruct H as ((it & p') & X & I). cbn [snd] in X. subst p'.
    apply L_effect in I. exists it. tauto.
  Qed.
  Lemma untouched k : (forall it, In it its -> kind it <> inl (owner k)) -> k <> VBitLen -> v_num v k = v_num (start_vars v0) k.
  Proof.
    intros N B. rewrite v_putall. apply putall_other; [apply L_ok| |exact B]. rewrite L_kinds. intros I.
    apply in_map_iff in I. destruct I as (it & E & I). exact (N it I E).
  Qed.
  Lemma its_reg it : In it its -> reg_item it.
  Proof.
    intros I. unfold operands in I. apply filter_In in I. destruct I as (I & _). pose proof (items_reg _ false (op_mask o) (Nat.lt_succ_diag_r _)) as R.
    rewrite Forall_forall in R. apply R, I.
  Qed.
  Lemma its_symbol it : In it its -> is_symbol it = false.
  Proof. intros I. apply filter_In in I. destruct I as (_ & I). apply negb_true_iff in I. exact I. Qed.
  Ltac not_reg I := let G := fresh in pose proof (its_reg _ I) as G; cbn [reg_item] in G;
    repeat match goal with H : exists _, _ |- _ => destruct H as (? & H) | H : _ /\ _ |- _ => destruct H as (? & H) end; subst.
  Lemma no_item (P : mitem -> bool) k x : existsb P its = false -> owner k = k -> k <> VBitLen ->
    (forall it, kind it = inl k -> reg_item it -> is_symbol it = false -> P it = true) ->
    v_num (start_vars v0) k = Some x -> v_num v k = Some x.
  Proof.
    intros E O B H R. rewrite untouched; [exact R| |exact B]. intros it I K. rewrite O in K.
    apply not_true_iff_false in E. apply E. apply existsb_exists. exists it. split; [exact I|].
    apply H; [exact K|apply its_reg, I|apply its_symbol, I].
  Qed.
  Ltac kinds := intros it K G S; destruct it; try reflexivity; try discriminate; cbn [kind] in K; injection K as K; subst;
    cbn [reg_item] in G; repeat match goal with H : exists _, _ |- _ => destruct H as (? & H) | H : _ /\ _ |- _ => destruct H as (? & ?) end;
    match goal with s : rslot |- _ => destruct s; discriminate | s : cslot |- _ => destruct s; discriminate end.
  Lemma no_shift : takes_shift f = false -> v_num v VUseShift = Some 0.
  Proof.
    intros T. destruct row_facts_line as (_ & E & _). rewrite T in E.
    apply (no_item _ _ _ E); [reflexivity|discriminate|kinds|reflexivity].
  Qed.
  Lemma no_wb : takes_wb f = false -> v_num v VWriteback = Some 0.
  Proof.
    intros T. destruct row_facts_line as (_ & _ & E & _). rewrite T in E.
    apply (no_item _ _ _ E); [reflexivity|discriminate|kinds|reflexivity].
  Qed.
  Lemma no_psr : (match f with FBlock _ => true | _ => false end) = false -> v_num v VPsr = Some 0.
  Proof.
    intros T. destruct row_facts_line as (_ & _ & _ & E & _). rewrite T in E.
    apply (no_item _ _ _ E); [reflexivity|discriminate|kinds|reflexivity].
  Qed.
  Lemma bits_len : takes_imm f = true -> v_num v VBitLen = Some (imm_len f).
  Proof.
    intros T. destruct row_facts_line as (_ & _ & _ & _ & _ & _ & E & _). rewrite v_putall, putall_len by apply L_ok.
    rewrite L_fst, (E T). reflexivity.
  Qed.
  Lemma num_ok k : (forall x, bound k x -> 0 <= x < 16) -> 0 <= num v k < 16.
  Proof. intros B. unfold num. destruct (v_num v k) as [x|] eqn:E; [apply B, Hv, E|lia]. Qed.

  Lemma the_line_wf : line_wf i f.
  Proof.
    pose proof (spells_range _ _ _ Hsp) as (C & M).
    refine (conj _ (conj _ (conj _ (conj _ (conj _ (conj _ (conj _ _))))))).
    - unfold arm_in_wf, arm_input, suffixes_of. cbn [i_c i_rd i_rn i_rm i_rs i_shift_reg i_cd i_cn i_cm i_pn i_a i_field i_rlist u_c u_a].
      repeat match goal with |- _ /\ _ => split end; try (apply (num_ok VRd); auto); try (apply (num_ok VRn); auto); try (apply (num_ok VRm); auto);
        try (apply (num_ok VRs); auto); try (apply (num_ok VShiftReg); auto); try (apply (num_ok VCd); auto);
        try (apply (num_ok VCn); auto); try (apply (num_ok VCm); auto); try (apply (num_ok VPn); auto); try (apply (num_ok VField); auto);
        try apply M.
      + destruct (has_char "C" (op_name o)); lia.
      + destruct (has_char "C" (op_name o)); lia.
      + unfold num. destruct (v_num v VRlist) as [x|] eqn:E; [|lia]. apply Hv in E. apply E.
      + unfold num. destruct (v_num v VRlist) as [x|] eqn:E; [|lia]. apply Hv in E. apply E.
    - unfold arm_input. cbn [i_shift_type]. unfold num. destruct (v_num v VShiftType) as [x|] eqn:E; [|lia]. apply Hv in E. exact E.
    - intros T. unfold arm_input, suffixes_of. cbn [i_s u_s]. apply (spells_s _ _ _ Hsp).
      destruct (row_syntax _ _ Hin Hf) as (S & _). rewrite S. exact T.
    - intros T. unfold arm_input. cbn [i_use_shift]. unfold truth, num. rewrite (no_shift T). reflexivity.
    - intros T. unfold arm_input. cbn [i_writeback]. unfold truth, num. rewrite (no_wb T). reflexivity.
    - assert (P : (match f with FBlock _ => true | _ => false end) = false -> i_psr i = false).
      { intros T. unfold arm_input. cbn [i_psr]. unfold truth, num. rewrite (no_psr T). reflexivity. }
      destruct f; try exact Logic.I; apply P; reflexivity.
    - assert (B : match f with FMem _ _ _ _ | FPld _ => True | _ => False end -> i_use_shift i = true -> i_shift_byreg i = false).
      { intros T. unfold arm_input. cbn [i_use_shift i_shift_byreg].
        destruct row_facts_line as (_ & E & _ & _ & _ & _ & _ & S & _).
        destruct (existsb is_shift_item its) eqn:X.
        - apply existsb_exists in X. destruct X as (it & I & X). pose proof I as I'. rewrite <- L_fst in I'. apply in_map_iff in I'.
          destruct I' as ((it' & p) & Y & I'). cbn [fst] in Y. subst it'. apply L_effect in I'. destruct I' as (O & Ef & _ & _).
          specialize (S _ I). destruct it; try discriminate X.
          + assert (imm : immOnly = true) by (destruct f; try contradiction; exact S). subst immOnly.
            destruct p; cbn [ok_piece] in O; try contradiction. destruct s as [(ty & [rr|ee])|]; cbn [effect] in Ef; [discriminate| |].
            * destruct Ef as (_ & _ & E2 & _). intros _. unfold truth, num. rewrite E2. reflexivity.
            * unfold truth, num. rewrite Ef. discriminate.
          + destruct f; contradiction.
        - unfold truth at 1, num. rewrite (no_shift (eq_sym E)). discriminate. }
      destruct f; try exact Logic.I; apply B; exact Logic.I.
    - intros T. unfold arm_input. cbn [i_bitlen]. unfold num. rewrite (bits_len T). reflexivity.
  Qed.

  Section Asked.
    Variable q : aops.
    Hypothesis Hq : asks nan ev arch u ps q.
    Lemma says p : In p ps -> piece_says nan ev q p.
    Proof. intros I. destruct Hq as (_ & F & _). rewrite Forall_forall in F. apply F, I. Qed.
    Lemma no_piece (P : piece -> bool) (Q : mitem -> bool) : existsb Q its = false ->
      (forall it p, ok_piece it p -> P p = true -> Q it = true) -> existsb P ps = false.
    Proof.
      intros E H. apply not_true_iff_false. intros X. apply existsb_exists in X. destruct X as (p & I & X).
      destruct (piece_of p I) as (it & O & _ & Ii). apply not_true_iff_false in E. apply E, existsb_exists. exists it. split; [exact Ii|].
      eapply H; eassumption.
    Qed.
    Lemma q_needs n : In n (needs f) -> field n q =
      match n with
      | NdCond => inl (i_c i) | NdRd => inl (i_rd i) | NdRn => inl (i_rn i) | NdRm => inl (i_rm i) | NdRs => inl (i_rs i)
      | NdSpsr => inr (i_spsr i) | NdField => inl (i_field i) | NdList => inl (i_rlist i)
      | NdCp => inl (i_pn i) | NdCrd => inl (i_cd i) | NdCrn => inl (i_cn i) | NdCrm => inl (i_cm i)
      end.
    Proof.
      intros I. destruct row_facts_line as (_ & _ & _ & _ & _ & _ & _ & _ & _ & _ & _ & _ & _ & P & _). specialize (P _ I).
      destruct Hq as ((Qc & _) & _).
      unfold arm_input. destruct n; cbn [provides] in P; cbn [field i_c i_rd i_rn i_rm i_rs i_spsr i_field i_rlist i_pn i_cd i_cn i_cm].
      1: { unfold suffixes_of. cbn [u_c]. rewrite P, Qc. reflexivity. }
      all: destruct (item_of _ P) as (it & p & Pi & O & Ef & Ip); destruct it; try discriminate Pi;
        repeat match goal with k : var |- _ => destruct k; try discriminate Pi end;
        destruct p; cbn [ok_piece] in O; try contradiction; try (destruct k; try discriminate O);
        cbn [effect] in Ef; pose proof (says _ Ip) as S; cbn [piece_says] in S; unfold num, truth, num.
      all: try (rewrite Ef, S; reflexivity).
      - destruct S as (-> & _), Ef as (-> & _). destruct spsr; reflexivity.
      - subst short. destruct field as [x|]; [|discriminate Pi]. destruct S as (_ & ->), Ef as (_ & ->). reflexivity.
    Qed.
    Definition full : aops :=
      mkAops (i_c i) (i_s i) (i_a i) (i_x i) (i_y i) (i_rd i) (i_rn i) (i_rm i) (i_rs i) (q_shift q) (q_imm q)
        (i_spsr i) (i_field i) (takes_sign f && negb (i_signplus i)) (i_writeback i) (i_psr i) (i_rlist i)
        (i_pn i) (i_cd i) (i_cn i) (i_cm i) (q_opc1 q) (q_opc2 q)
        (match i_arch i with AARCH_GBA | AARCH_NDS => true | _ => false end).
    Lemma full_same : same_on f q full.
    Proof.
      destruct Hq as ((Qc & Qs & Qm & Qx & Qy) & _ & Wb & Us & Mi & _ & _ & Sh).
      destruct row_facts_line as (_ & _ & Iw & Ip & Is & _).
      refine (conj _ (conj _ (conj _ (conj _ (conj _ (conj _ (conj _ (conj _ (conj _ (conj _ (conj _ (conj _ _)))))))))))).
      - intros n I. rewrite (q_needs n I). destruct n; reflexivity.
      - unfold full, arm_input, suffixes_of. cbn [q_s i_s u_s]. exact Qs.
      - unfold full, arm_input, suffixes_of. cbn [q_mode i_a u_a]. exact Qm.
      - unfold full, arm_input, suffixes_of. cbn [q_x i_x u_x]. exact Qx.
      - unfold full, arm_input, suffixes_of. cbn [q_y i_y u_y]. exact Qy.
      - reflexivity.
      - reflexivity.
      - unfold full, arm_input. cbn [q_minus i_signplus]. destruct (takes_sign f) eqn:T; cbn [andb].
        + destruct (item_of _ Is) as (it & p & Pi & O & Ef & I). destruct it; try discriminate Pi.
          destruct p; cbn [ok_piece] in O; try contradiction. cbn [effect] in Ef. pose proof (says _ I) as S. cbn [piece_says] in S.
          unfold truth, num. rewrite Ef, S. destruct b; reflexivity.
        + apply Mi. apply (no_piece _ _ Is). intros it p O X. destruct p; try discriminate X. destruct it; try contradiction; reflexivity.
      - unfold full, arm_input. cbn [q_wb i_writeback]. destruct (takes_wb f) eqn:T.
        + destruct (item_of _ Iw) as (it & p & Pi & O & Ef & I). destruct it; try discriminate Pi.
          destruct p; cbn [ok_piece] in O; try contradiction. cbn [effect] in Ef. pose proof (says _ I) as S. cbn [piece_says] in S.
          unfold truth, num. rewrite Ef, S. destruct b; reflexivity.
        + unfold truth, num. rewrite (no_wb T). apply Wb. apply (no_piece _ _ Iw).
          intros it p O X. destruct p; try discriminate X. destruct it; try contradiction; reflexivity.
      - unfold full, arm_input. cbn [q_user i_psr]. destruct (match f with FBlock _ => true | _ => false end) eqn:T.
        + destruct (item_of _ Ip) as (it & p & Pi & O & Ef & I). destruct it; try discriminate Pi.
          destruct p; cbn [ok_piece] in O; try contradiction. cbn [effect] in Ef. pose proof (says _ I) as S. cbn [piece_says] in S.
          unfold truth, num. rewrite Ef, S. destruct b; reflexivity.
        + unfold truth, num. rewrite (no_psr T). apply Us. apply (no_piece _ _ Ip).
          intros it p O X. destruct p; try discriminate X. destruct it; try contradiction; reflexivity.
      - reflexivity.
      - reflexivity.
      - exact Sh.
    Qed.
    Lemma full_agrees : agrees i e f full.
    Proof.
      destruct Hq as (_ & _ & _ & _ & _ & NoS & No2 & _).
      destruct row_facts_line as (_ & Is & _ & _ & _ & Ii & _ & _ & Io & If & _).
      unfold agrees. refine (conj _ (conj _ (conj _ (conj _ (conj _ (conj _ (conj _ _))))))); try (repeat split; reflexivity).
      - unfold shift_of, full. cbn [q_shift]. unfold arm_input. cbn [i_use_shift i_shift_byreg i_shift_type i_shift_reg].
        destruct (takes_shift f) eqn:T.
        + destruct (item_of _ Is) as (it & p & Pi & O & Ef & I). pose proof (says _ I) as S.
          destruct it; try discriminate Pi; destruct p; cbn [ok_piece] in O; try contradiction;
            destruct s as [(ty' & [rr|ee])|]; try contradiction; cbn [effect] in Ef; cbn [piece_says] in S; unfold truth, num.
          * destruct Ef as (-> & -> & -> & ->). exact S.
          * destruct Ef as (-> & -> & -> & X). destruct S as (n & W & S). exists n. split; [|exact S].
            unfold arm_values. cbn [e_shift]. rewrite X. cbn [option_map as_int]. unfold whole in W. rewrite W. reflexivity.
          * rewrite Ef. exact S.
          * destruct Ef as (-> & -> & -> & ->). exact S.
          * destruct Ef as (-> & -> & -> & X). destruct S as (n & W & S). exists n. split; [|exact S].
            unfold arm_values. cbn [e_shift]. rewrite X. cbn [option_map as_int]. unfold whole in W. rewrite W. reflexivity.
        + unfold truth at 1, num. rewrite (no_shift T). cbn [Z.eqb]. apply NoS. apply (no_piece _ _ Is).
          intros it p O X. destruct p; try discriminate X. destruct it; try contradiction; reflexivity.
      - intros T. rewrite T in Ii. destruct (item_of _ Ii) as (it & p & Pi & O & Ef & I). pose proof (says _ I) as S.
        destruct it; try discriminate Pi. destruct p; cbn [ok_piece] in O; try contradiction. subst k. cbn [effect] in Ef. cbn [piece_says] in S.
        unfold arm_values. cbn [e_imm]. rewrite Ef. cbn [option_map as_imm]. unfold word_of in S. unfold full. cbn [q_imm].
        destruct (ev e); try contradiction; cbn [imm_word]; rewrite S; reflexivity.
      - assert (C1 : existsb is_op_item its = true -> e_cpop e = Some (q_opc1 q)).
        { intros E. destruct (item_of _ E) as (it & p & Pi & O & Ef & I). pose proof (says _ I) as S.
          destruct it; try discriminate Pi. destruct p; cbn [ok_piece] in O; try contradiction. subst k. cbn [effect] in Ef. cbn [piece_says] in S.
          unfold arm_values. cbn [e_cpop]. rewrite Ef. cbn [option_map]. unfold whole in S. rewrite S. reflexivity. }
        assert (C2 : existsb is_inf_item its = true -> e_cpinf e = Some (q_opc2 q)).
        { intros E. destruct (item_of _ E) as (it & p & Pi & O & Ef & I). pose proof (says _ I) as S.
          destruct it; try discriminate Pi. destruct p; cbn [ok_piece] in O; try contradiction. subst k. cbn [effect] in Ef. cbn [piece_says] in S.
          unfold arm_values. cbn [e_cpinf]. rewrite Ef. cbn [option_map]. unfold whole in S. rewrite S. reflexivity. }
        assert (C3 : existsb is_inf_item its = false -> q_opc2 q = 0).
        { intros E. apply No2. apply (no_piece _ _ E). intros it p O X. destruct p; try discriminate X.
          destruct k; try discriminate X. destruct it; try contradiction; try discriminate O; reflexivity. }
        destruct f; try exact Logic.I. unfold full. cbn [q_opc1 q_opc2]. split; [apply C1, Io|].
        destruct inf; [apply C2, If|apply C3, If].
    Qed.
  End Asked.
  Lemma int_whole : takes_imm f = true -> int_imm (e_imm e) = whole_imm ev ps.
  Proof.
    intros T. destruct row_facts_line as (_ & _ & _ & _ & _ & Ii & _). rewrite T in Ii.
    destruct (item_of _ Ii) as (it & p & Pi & O & Ef & I). destruct it; try discriminate Pi. destruct p; cbn [ok_piece] in O; try contradiction.
    subst k. cbn [effect] in Ef. unfold arm_values. cbn [e_imm]. rewrite Ef. cbn [option_map].
    assert (X : forall e', In (PNum NImm e') ps -> e' = e).
    { intros e' I'. destruct (piece_of _ I') as (it' & O' & Ef' & _). destruct it'; cbn [ok_piece] in O'; try contradiction; try discriminate O'.
      cbn [effect] in Ef'. congruence. }
    assert (B : forall b, (match ev e with VInt _ => true | _ => false end) = b -> whole_imm ev ps = b).
    { intros b <-. unfold whole_imm. destruct (match ev e with VInt _ => true | _ => false end) eqn:E.
      - apply forallb_forall. intros p Hp. destruct p; try reflexivity. destruct k; try reflexivity. apply X in Hp. subst. exact E.
      - apply not_true_iff_false. intros A. rewrite forallb_forall in A. specialize (A _ I). cbv beta iota in A. congruence. }
    symmetry. apply B. destruct (ev e); reflexivity.
  Qed.

  (** Variables that are read are set. *)
  Lemma reads_split w : reads_num o w =
    when (match v_num w VUseShift with Some 1 => true | _ => false end)
      ([VByReg; VShiftType] ++ when (match v_num w VByReg with Some 1 => true | _ => false end) [VShiftReg]) ++ reads_rest o.
  Proof. reflexivity. Qed.
  Lemma all_set : f <> FHalfAbs -> forallb (is_set v) (reads_num o v) = true.
  Proof.
    intros N. rewrite reads_split, forallb_app. apply andb_true_iff. split.
    - destruct row_facts_line as (_ & Is & _). destruct (takes_shift f) eqn:T.
      + destruct (item_of _ Is) as (it & p & Pi & O & Ef & I).
        destruct it; try discriminate Pi; destruct p; cbn [ok_piece] in O; try contradiction;
            destruct s as [(ty' & [rr|ee])|]; try contradiction; cbn [effect] in Ef; unfold is_set.
        * destruct Ef as (-> & A & B & C). rewrite B. cbn [when app forallb]. rewrite A, B, C. reflexivity.
        * destruct Ef as (-> & A & B & C). rewrite B. cbn [when app forallb]. rewrite A, B. reflexivity.
        * rewrite Ef. reflexivity.
        * destruct Ef as (-> & A & B & C). rewrite B. cbn [when app forallb]. rewrite A, B, C. reflexivity.
        * destruct Ef as (-> & A & B & C). rewrite B. cbn [when app forallb]. rewrite A, B. reflexivity.
      + rewrite (no_shift T). reflexivity.
    - apply forallb_forall. intros k I. destruct row_facts_line as (_ & _ & _ & _ & _ & _ & _ & _ & _ & _ & _ & _ & _ & _ & W).
      specialize (W N k I). unfold is_set. assert (X : v_num v k <> None); [|destruct (v_num v k); [reflexivity|contradiction X; reflexivity]].
      rewrite v_putall. apply putall_sets; [apply L_ok|]. rewrite L_fst. destruct W as [W|W]; [right; exact W|left].
      destruct k; try discriminate W; discriminate.
  Qed.

  (** If the line is assembled, its expressions have values. *)
  Lemma shift_no_ub m n : validate_shift m n <> RUb.
  Proof.
    unfold validate_shift. cbv zeta.
    repeat match goal with |- (if ?b then _ else _) <> _ => destruct b; try discriminate end.
  Qed.
  Lemma validated ramPos pool : arm_emit i ramPos e pool <> RErr ->
    (i_use_shift i = true -> i_shift_byreg i = false -> e_shift e <> None) /\
    (has o ARM_COPOP = true -> e_cpop e <> None) /\ (has o ARM_COPINF = true -> e_cpinf e <> None) /\
    (has o ARM_IMMEDIATE = true -> imm_word (e_imm e) <> None).
  Proof.
    unfold arm_emit. intros H. assert (V : arm_validate i ramPos e <> RErr).
    { intros V. rewrite V in H. apply H. reflexivity. }
    clear H. unfold arm_validate in V. cbv zeta in V. change (i_op i) with o in V.
    assert (K : i_use_shift i = true -> i_shift_byreg i = false -> e_shift e <> None).
    { intros A B C. rewrite A, B, C in V. apply V. reflexivity. }
    split; [exact K|].
    destruct (if i_use_shift i && negb (i_shift_byreg i) then _ else _) as [fin| |] eqn:E1;
      [|contradiction V; reflexivity|exfalso].
    2:{ destruct (i_use_shift i && negb (i_shift_byreg i)); [|discriminate]. destruct (e_shift e); [|discriminate].
        pose proof (shift_no_ub (i_shift_type i) (s32 z)). destruct (validate_shift (i_shift_type i) (s32 z)); try discriminate. congruence. }
    clear E1. cbn [rbind] in V.
    assert (K2 : has o ARM_COPOP = true -> e_cpop e <> None).
    { intros A B. rewrite A, B in V. apply V. reflexivity. }
    split; [exact K2|].
    destruct (if has o ARM_COPOP then _ else _) as [c1| |] eqn:E1; [|contradiction V; reflexivity|exfalso].
    2:{ destruct (has o ARM_COPOP); [|discriminate]. destruct (e_cpop e); [|discriminate]. destruct (_ >? 15); discriminate. }
    clear E1. cbn [rbind] in V.
    assert (K3 : has o ARM_COPINF = true -> e_cpinf e <> None).
    { intros A B. rewrite A, B in V. apply V. reflexivity. }
    split; [exact K3|].
    destruct (if has o ARM_COPINF then _ else _) as [c2| |] eqn:E1; [|contradiction V; reflexivity|exfalso].
    2:{ destruct (has o ARM_COPINF); [|discriminate]. destruct (e_cpinf e); [|discriminate]. destruct (_ >? 7); discriminate. }
    clear E1. cbn [rbind] in V.
    intros A B. rewrite A in V. destruct (has o ARM_RDEVEN && _); [apply V; reflexivity|].
    unfold validate_imm in V. destruct (e_imm e); try discriminate B. apply V. reflexivity.
  Qed.
  Lemma has_words ramPos pool : arm_emit i ramPos e pool <> RErr -> exists q, asks nan ev arch u ps q.
  Proof.
    intros H. destruct (validated _ _ H) as (Ks & K1 & K2 & Ki). clear H.
    destruct row_facts_line as (_ & _ & _ & _ & _ & _ & _ & _ & _ & _ & Fi & F1 & F2 & _).
    set (some := fun (x : option Z) => match x with Some z => z | None => 0 end).
    exists (mkAops (w_c u) (w_s u) (w_mode u) (w_x u) (w_y u) (num v VRd) (num v VRn) (num v VRm) (num v VRs)
      (if truth v VUseShift then if truth v VByReg then WReg (num v VShiftType) (num v VShiftReg)
                                 else WImm (num v VShiftType) (some (e_shift e)) else WNone)
      (some (imm_word (e_imm e))) (truth v VSpsr) (num v VField)
      (if existsb is_sign_item its then negb (truth v VSignPlus) else false) (truth v VWriteback) (truth v VPsr) (num v VRlist)
      (num v VPn) (num v VCd) (num v VCn) (num v VCm) (some (e_cpop e)) (if existsb is_inf_item its then some (e_cpinf e) else 0)
      (match arch with AARCH_GBA | AARCH_NDS => true | _ => false end)).
    assert (item : forall P it, In it its -> P it = true -> existsb P its = true) by (intros; apply existsb_exists; eauto).
    assert (none : forall (P : piece -> bool) (Q : mitem -> bool), existsb P ps = false ->
      (forall it p, ok_piece it p -> Q it = true -> P p = true) -> existsb Q its = false).
    { intros P Q E X. apply not_true_iff_false. intros Y. destruct (item_of _ Y) as (it & p & Pi & O & _ & I).
      apply not_true_iff_false in E. apply E, existsb_exists. exists p. split; [exact I|]. eapply X; eassumption. }
    unfold asks. cbn [q_cond q_s q_mode q_x q_y q_wb q_user q_minus q_shift q_opc2 q_short].
    refine (conj _ (conj _ (conj _ (conj _ (conj _ (conj _ (conj _ _))))))).
    - repeat split.
    - apply Forall_forall. intros p I. destruct (piece_of p I) as (it & O & Ef & Ii).
      destruct it, p; cbn [ok_piece] in O; try contradiction; cbn [effect] in Ef; cbn [piece_says q_rd q_rn q_rm q_rs q_crd q_crn q_crm q_cp
        q_wb q_user q_minus q_spsr q_field q_list q_shift q_imm q_opc1 q_opc2].
      + subst k. destruct k0; cbn [var_of] in Ef; unfold num; rewrite Ef; reflexivity.
      + subst k. destruct k0; cbn [cvar_of] in Ef; unfold num; rewrite Ef; reflexivity.
      + unfold truth, num. rewrite Ef. destruct b; reflexivity.
      + unfold truth, num. rewrite Ef. destruct b; reflexivity.
      + destruct Ef as (E1 & E2). unfold truth, num. rewrite E1. split; [destruct spsr; reflexivity|].
        destruct field as [y|]; [rewrite E2; reflexivity|exact Logic.I].
      + unfold num. rewrite Ef. reflexivity.
      + destruct s as [(ty' & [rr|ee])|]; cbn [effect] in Ef.
        * destruct Ef as (E1 & E2 & E3 & E4). unfold truth, num. rewrite E1, E2, E3, E4. reflexivity.
        * destruct Ef as (E1 & E2 & E3 & E4). unfold arm_input in Ks. cbn [i_use_shift i_shift_byreg] in Ks.
          unfold truth, num in *. rewrite E1, E3 in *. rewrite E2. specialize (Ks eq_refl eq_refl). unfold arm_values in *.
          cbn [e_shift] in *. rewrite E4 in *. cbn [option_map] in *. unfold as_int in *. cbn [Z.eqb Pos.eqb].
          unfold whole. destruct (ev ee) as [|z| |]; try (contradiction Ks; reflexivity). exists z. split; reflexivity.
        * unfold truth at 1, num. rewrite Ef. reflexivity.
      + subst k. assert (A : has o ARM_IMMEDIATE = true) by (rewrite <- Fi; apply (item _ _ Ii eq_refl)).
        specialize (Ki A). unfold arm_values in *. cbn [e_imm] in *. rewrite Ef in *. cbn [option_map as_imm] in *. unfold word_of.
        destruct (ev e); try (contradiction Ki; reflexivity); reflexivity.
      + subst k. unfold num. rewrite Ef. reflexivity.
      + subst k. assert (A : has o ARM_COPOP = true) by (rewrite <- F1; apply (item _ _ Ii eq_refl)).
        specialize (K1 A). unfold arm_values in *. cbn [e_cpop] in *. rewrite Ef in *. cbn [option_map] in *. unfold as_int in *. unfold whole.
        destruct (ev e); try (contradiction K1; reflexivity); reflexivity.
      + subst k. pose proof (item is_inf_item _ Ii eq_refl) as B. assert (A : has o ARM_COPINF = true) by (rewrite <- F2; exact B).
        rewrite B.
        specialize (K2 A). unfold arm_values in *. cbn [e_cpinf] in *. rewrite Ef in *. cbn [option_map] in *. unfold as_int in *. unfold whole.
        destruct (ev e); try (contradiction K2; reflexivity); reflexivity.
      + destruct s as [(ty' & [rr|ee])|]; [| |contradiction]; cbn [effect] in Ef.
        * destruct Ef as (E1 & E2 & E3 & E4). unfold truth, num. rewrite E1, E2, E3, E4. reflexivity.
        * destruct Ef as (E1 & E2 & E3 & E4). unfold arm_input in Ks. cbn [i_use_shift i_shift_byreg] in Ks.
          unfold truth, num in *. rewrite E1, E3 in *. rewrite E2. specialize (Ks eq_refl eq_refl). unfold arm_values in *.
          cbn [e_shift] in *. rewrite E4 in *. cbn [option_map] in *. unfold as_int in *. cbn [Z.eqb Pos.eqb].
          unfold whole. destruct (ev ee) as [|z| |]; try (contradiction Ks; reflexivity). exists z. split; reflexivity.
      + rewrite (item is_sign_item _ Ii eq_refl). unfold truth, num. rewrite Ef. destruct b; reflexivity.
    - intros E. assert (X : existsb is_wb_item its = false).
      { apply (none _ _ E). intros it p O Y. destruct it; try discriminate Y. destruct p; try contradiction. reflexivity. }
      unfold truth, num. rewrite no_wb; [reflexivity|]. destruct row_facts_line as (_ & _ & A & _). congruence.
    - intros E. assert (X : existsb is_psr_item its = false).
      { apply (none _ _ E). intros it p O Y. destruct it; try discriminate Y. destruct p; try contradiction. reflexivity. }
      unfold truth, num. rewrite no_psr; [reflexivity|]. destruct row_facts_line as (_ & _ & _ & A & _). congruence.
    - intros E. rewrite (none _ is_sign_item E); [reflexivity|].
      intros it p O Y. destruct it; try discriminate Y. destruct p; try contradiction. reflexivity.
    - intros E. assert (X : existsb is_shift_item its = false).
      { apply (none _ _ E). intros it p O Y. destruct it; try discriminate Y; destruct p; try contradiction; reflexivity. }
      unfold truth at 1, num. rewrite no_shift; [reflexivity|]. destruct row_facts_line as (_ & A & _). congruence.
    - intros E. rewrite (none _ is_inf_item E); [reflexivity|].
      intros it p O Y. destruct it; try discriminate Y. destruct p; cbn [ok_piece] in O; try contradiction. subst. reflexivity.
    - reflexivity.
  Qed.
End Row.
