(** Operands of ARM instructions: what the parser of a row accepts is what the syntax of the row lays out. *)

Require Import ZArith Lia Bool List String Ascii.
Require Import ZifyBool.
Require Import Verif.Ints Verif.ExprModel Verif.ParseModel Verif.ArmModel Verif.ArmLineModel Verif.ArmLineSpec
  Verif.ArmOperandProofs.
Import ListNotations.
Local Open Scope Z_scope.

(** * Tokens left by expressions are tokens of the line *)

Lemma incl_tl {A} (l : list A) : incl (tl l) l.
Proof. destruct l; [apply incl_refl|]. apply List.incl_tl, incl_refl. Qed.
Section Rest.
  Variable isfun : string -> bool.
  Variables file section : Z.
  Definition left_in (ts : list token) (x : ParseModel.pres) : Prop :=
    match x with POk _ r => incl r ts | PFail r => incl r ts | PFuel => True end.
  Lemma parse_rest k : forall nt ts, left_in ts (parse isfun file section k nt ts).
  Proof.
    induction k as [|k IH]; intros nt ts; [exact Logic.I|].
    assert (C : forall (t : token) l m, incl (t :: l) m -> incl l m) by (intros t l m H x Hx; apply H; right; exact Hx).
    assert (T : forall l m : list token, incl l m -> incl (tl l) m) by (intros l m H; eapply incl_tran; [apply incl_tl|exact H]).
    assert (step : forall nt' ts', incl ts' ts -> left_in ts (parse isfun file section k nt' ts')).
    { intros nt' ts' H. pose proof (IH nt' ts') as P. destruct (parse _ _ _ k nt' ts'); cbn [left_in] in *; auto; eapply incl_tran; eauto. }
    pose proof (incl_refl ts) as R. cbn [parse].
    destruct nt.
    - destruct ts as [|[] ts']; cbn [left_in]; eauto.
      match goal with |- context [parse isfun file section k ?n ?t] =>
        pose proof (step n t ltac:(eauto)) as P; destruct (parse isfun file section k n t) as [e r|r|] end; cbn [left_in] in *; eauto.
      destruct r as [|[] r]; cbn [left_in]; eauto.
    - destruct ts as [|[] ts']; try (apply step; exact R).
      destruct ts' as [|[] ts'']; try (apply step; exact R). destruct (isfun n); apply step; eauto.
    - assert (A : forall t, incl t ts -> left_in ts
                 match parse isfun file section k NExpr t with
                 | POk e r => parse isfun file section k (NArgs f (e :: acc)) r
                 | PFail r => PFail r | PFuel => PFuel end).
      { intros t Ht. pose proof (step NExpr t Ht) as P. destruct (parse isfun file section k NExpr t); cbn [left_in] in *; auto. }
      destruct acc; destruct ts as [|[] ts']; cbn [left_in]; eauto; apply A; cbn [tl]; eauto.
    - destruct n as [|n].
      + pose proof (step NPostfix ts R) as P. destruct (parse isfun file section k NPostfix ts) as [e r|r|]; auto.
        cbn [left_in] in P. pose proof (step NPostfix (tl r) (T _ _ P)) as P2.
        destruct (parse isfun file section k NPostfix (tl r)); cbn [left_in] in *; auto.
        destruct (unary_at _ _); cbn [left_in]; auto.
      + pose proof (step (NBin n) ts R) as P. destruct (parse isfun file section k (NBin n) ts) as [e r|r|]; auto.
    - destruct (op_at n (peek ts)); [|exact R].
      pose proof (step (NBin (n - 1)) (tl ts) (T _ _ R)) as P. destruct (parse isfun file section k (NBin (n - 1)) (tl ts)); auto.
    - pose proof (step (NBin 10) ts R) as P. destruct (parse isfun file section k (NBin 10) ts) as [e r|r|]; auto.
      cbn [left_in] in P. destruct r as [|[] r]; auto. 
      pose proof (step NExpr r (C _ _ _ P)) as P2. destruct (parse isfun file section k NExpr r) as [e2 r2|r2|]; auto.
      cbn [left_in] in P2. destruct r2 as [|[] r2]; cbn [left_in]; eauto.
      pose proof (step NExpr r2 (C _ _ _ P2)) as P3. destruct (parse isfun file section k NExpr r2) as [e3 r3|r3|]; auto.
  Qed.
  Lemma expression_rest ts e r : parse_expression isfun file section ts = Some (e, r) -> incl r ts.
  Proof.
    unfold parse_expression. intros H. pose proof (parse_rest (32 * List.length ts + 32) NExpr ts) as P.
    destruct (parse _ _ _ _ NExpr ts); try discriminate. injection H as <- <-. exact P.
  Qed.
End Rest.

(** * One step of the loop *)

Definition var_of (k : rslot) : var := match k with RD => VRd | RN => VRn | RM => VRm | RS => VRs end.
Definition cvar_of (k : cslot) : var := match k with CD => VCd | CN => VCn | CM => VCm | CP => VPn end.
Definition put_amount (a : amount) (v : vars) : vars :=
  match a with
  | ByReg r => set VUseShift 1 (set VByReg 1 (set VShiftReg r v))
  | ByNum e => set VUseShift 1 (set VByReg 0 (setx XShift e v))
  end.
(** The variables after an operand was read. *)
Definition put (it : mitem) (p : piece) (v : vars) : vars :=
  match it, p with
  | MReg k _, PReg _ x => set k x v
  | MCopReg k, PCop _ x => set k x v
  | MCopNumber, PCop _ x => set VPn x v
  | MWriteback, PWriteback b => set VWriteback (if b then 1 else 0) v
  | MPsr, PUser b => set VPsr (if b then 1 else 0) v
  | MSign, PMinus b => set VSignPlus (if b then 0 else 1) v
  | MPsrTransfer _, PStatus s f =>
      let v := set VSpsr (if s then 1 else 0) v in match f with Some x => set VField x v | None => v end
  | MList, PList m => set VRlist m v
  | MShift _, PShift None => set VUseShift 0 v
  | MShift _, PShift (Some (ty, a)) => put_amount a (set VShiftType ty (set VUseShift 0 v))
  | MPseudoShift _, PShift (Some (ty, a)) => put_amount a (set VShiftType ty v)
  | MImm len, PNum _ e => set VBitLen len (setx XImm e v)
  | MCopOp, PNum _ e => set VBitLen 4 (setx XCpop e v)
  | MCopInf, PNum _ e => set VBitLen 3 (setx XCpinf e v)
  | _, _ => v
  end.
Definition put_some (it : mitem) (p : option piece) (v : vars) : vars := match p with Some p => put it p v | None => v end.

Definition long_digits (n : string) : Prop :=
  exists p d x, n = (p ++ d)%string /\ decimal 0 d = Some x /\ (19 <= String.length d)%nat.

Section Steps.
  Variable isfun : string -> bool.
  Variables file section : Z.
  Notation number := (number isfun file section).
  Notation shift_by := (shift_by isfun file section).
  Notation shifted := (shifted isfun file section).
  Notation lays := (lays isfun file section).
  Notation run_item := (run_item isfun file section).
  Notation run_items := (run_items isfun file section).

  Lemma reserved_model n : reserved n <->
    ~ (psr_text false n = None /\ lookup n armRegisters = None /\ lookup n armCopNumbers = None /\ lookup n armCopRegisters = None).
  Proof.
    unfold reserved. split.
    - intros [(x & H)|[(x & H)|[(x & H)|(s & f & j & H)]]] (A & B & C & D).
      + apply reg_lookup in H. congruence.
      + apply cop_lookup in H. congruence.
      + apply cp_lookup in H. congruence.
      + apply psr_complete in H. congruence.
    - intros H. destruct (psr_text false n) as [(s & f)|] eqn:E1.
      { destruct (psr_sound _ _ _ E1) as (j & P). right. right. right. eauto. }
      destruct (lookup n armRegisters) as [x|] eqn:E2. { apply reg_lookup in E2. left. eauto. }
      destruct (lookup n armCopNumbers) as [x|] eqn:E3. { apply cp_lookup in E3. right. right. left. eauto. }
      destruct (lookup n armCopRegisters) as [x|] eqn:E4. { apply cop_lookup in E4. right. left. eauto. }
      exfalso. apply H. auto.
  Qed.
  Lemma number_model ts e r : number ts e r <-> parseImmediate isfun file section ts = Some (e, r).
  Proof.
    unfold ArmLineSpec.number, parseImmediate. split.
    - intros (N & P). destruct ts as [|t ts]; [exact P|]. destruct t; try exact P.
      specialize (N _ _ eq_refl). rewrite reserved_model in N.
      destruct (psr_text false n); [exfalso; apply N; intros (? & _); discriminate|].
      destruct (lookup n armRegisters); [exfalso; apply N; intros (_ & ? & _); discriminate|].
      destruct (lookup n armCopNumbers); [exfalso; apply N; intros (_ & _ & ? & _); discriminate|].
      destruct (lookup n armCopRegisters); [exfalso; apply N; intros (_ & _ & _ & ?); discriminate|]. exact P.
    - intros P. destruct ts as [|t ts]; [split; [discriminate|exact P]|].
      destruct t; try (split; [discriminate|exact P]).
      destruct (psr_text false n) eqn:E1; [discriminate|]. destruct (lookup n armRegisters) eqn:E2; [discriminate|].
      destruct (lookup n armCopNumbers) eqn:E3; [discriminate|]. destruct (lookup n armCopRegisters) eqn:E4; [discriminate|].
      split; [|exact P]. intros m ts' E. injection E as <- <-. rewrite reserved_model. tauto.
  Qed.
  Lemma number_rest ts e r : number ts e r -> incl r ts.
  Proof. intros (_ & H). eapply expression_rest; exact H. Qed.
  Lemma number_not_reg ts e r : number ts e r -> parseRegisterTable ts armRegisters = None.
  Proof.
    intros (N & _). destruct ts as [|t ts]; [reflexivity|]. destruct t; try reflexivity. cbn [parseRegisterTable].
    destruct (lookup n armRegisters) as [x|] eqn:E; [|reflexivity]. apply reg_lookup in E.
    exfalso. apply (N _ _ eq_refl). left. eauto.
  Qed.

  Lemma amount_complete imm ts a r : shift_by imm ts a r -> forall v, shift_amount isfun file section imm v ts = Got (put_amount a v) r.
  Proof.
    intros H v. unfold shift_amount. destruct H as [n x r -> R|ts e r N H|ts e r H].
    - cbn [parseRegisterTable]. rewrite (proj1 (reg_lookup _ _) R). reflexivity.
    - rewrite (number_not_reg _ _ _ H). unfold immediate.
      assert (E : skip_hash ts = ts) by (destruct ts as [|[] ts]; try reflexivity; exfalso; apply N; reflexivity).
      rewrite E, (proj1 (number_model _ _ _) H). reflexivity.
    - cbn [parseRegisterTable skip_hash]. unfold immediate. rewrite (proj1 (number_model _ _ _) H). reflexivity.
  Qed.
  Lemma amount_sound imm v ts v' r : shift_amount isfun file section imm v ts = Got v' r -> exists a, shift_by imm ts a r.
  Proof.
    unfold shift_amount. destruct (parseRegisterTable ts armRegisters) as [(n & r')|] eqn:E.
    - destruct imm; [discriminate|]. intros H. injection H as _ <-. destruct ts as [|[] ts]; try discriminate.
      cbn [parseRegisterTable] in E. destruct (lookup n0 armRegisters) as [x|] eqn:L; [|discriminate]. injection E as -> ->.
      apply reg_lookup in L. exists (ByReg n). constructor; auto.
    - unfold immediate. destruct (parseImmediate _ _ _ (skip_hash ts)) as [(e & r')|] eqn:P; [|discriminate].
      intros H. injection H as _ <-. apply number_model in P. exists (ByNum e).
      destruct ts as [|t ts]; [apply by_num; [intros []|exact P]|].
      destruct t; try (apply by_num; [discriminate|exact P]). apply by_hash. exact P.
  Qed.
  Lemma amount_no_crash imm v ts : shift_amount isfun file section imm v ts <> Crash.
  Proof.
    unfold shift_amount, immediate. destruct (parseRegisterTable _ _) as [(? & ?)|]; [destruct imm; discriminate|].
    destruct (parseImmediate _ _ _ _) as [(? & ?)|]; discriminate.
  Qed.
  Lemma amount_rest imm ts a r : shift_by imm ts a r -> incl r ts.
  Proof.
    destruct 1 as [n x r _ _|ts e r _ H|ts e r H].
    - intros t Ht. right. exact Ht.
    - eapply number_rest; exact H.
    - apply number_rest in H. intros t Ht. right. apply H. exact Ht.
  Qed.
  Definition put_shift (s : option (Z * amount)) (v : vars) : vars :=
    match s with None => set VUseShift 0 v | Some (ty, a) => put_amount a (set VShiftType ty (set VUseShift 0 v)) end.
  Lemma shift_complete imm ts s r : shifted imm ts s r -> forall v, parseShift isfun file section imm v ts = Got (put_shift s v) r.
  Proof.
    intros H v. unfold parseShift. destruct H as [ts N|n ty ts a r I H|n ty d x r I D X L].
    - destruct ts as [|[] ts]; try reflexivity. exfalso. apply N. reflexivity.
    - destruct (glued_complete n ty "" 0 I eq_refl) as (ds & E & L & _). rewrite app_empty in E. rewrite E.
      destruct ds; [|discriminate]. cbn [List.length Z.of_nat Z.leb Z.compare].
      rewrite rev_involutive, string_of_list_ascii_of_string, (proj1 (shift_mode_in _ _) I). cbn [put_shift].
      rewrite (amount_complete _ _ _ _ H). reflexivity.
    - destruct (glued_complete n ty d x I X) as (ds & E & Ld & V). rewrite E.
      replace (19 <=? Z.of_nat (List.length ds)) with false by lia.
      rewrite rev_involutive, string_of_list_ascii_of_string, (proj1 (shift_mode_in _ _) I).
      destruct ds as [|d0 ds]; [destruct d; [contradiction|discriminate]|]. rewrite V. reflexivity.
  Qed.
  Lemma shift_sound imm v ts v' r : parseShift isfun file section imm v ts = Got v' r -> exists s, shifted imm ts s r.
  Proof.
    unfold parseShift. intros H. destruct ts as [|t ts].
    { injection H as _ <-. exists None. constructor. intros []. }
    destruct t; try (injection H as _ <-; exists None; constructor; discriminate).
    destruct ts as [|t ts]; [discriminate|]. destruct t; try discriminate.
    destruct (split_digits _) as (ds & t) eqn:S. destruct (glued_sound _ _ _ S) as (d & E & D & L).
    destruct (Z.leb_spec 19 (Z.of_nat (List.length ds))); [discriminate|].
    destruct (shift_mode _) as [ty|] eqn:M; [|discriminate]. apply shift_mode_in in M.
    destruct ds as [|d0 ds].
    - apply amount_sound in H. destruct H as (a & H). destruct d; [|discriminate]. rewrite app_empty in E. rewrite <- E in M.
      exists (Some (ty, a)). constructor; assumption.
    - injection H as _ <-. exists (Some (ty, ByNum (EInt (digits_value (d0 :: ds))))). rewrite E. apply shift_glued; auto.
      + intros ->. discriminate.
      + lia.
  Qed.
  Lemma shift_crash imm v ts : parseShift isfun file section imm v ts = Crash -> exists n, In (TIdent n) ts /\ long_digits n.
  Proof.
    unfold parseShift. intros H. destruct ts as [|t ts]; [discriminate|]. destruct t; try discriminate.
    destruct ts as [|t ts]; [discriminate|]. destruct t; try discriminate.
    destruct (split_digits _) as (ds & t) eqn:S. destruct (glued_sound _ _ _ S) as (d & E & D & L).
    destruct (Z.leb_spec 19 (Z.of_nat (List.length ds))).
    - exists n. split; [right; left; reflexivity|]. do 3 eexists. split; [exact E|]. split; [exact D|lia].
    - destruct (shift_mode _) as [ty|] eqn:M; [|discriminate]. destruct ds; [|discriminate].
      exfalso. eapply amount_no_crash; exact H.
  Qed.
  Lemma shift_rest imm ts s r : shifted imm ts s r -> incl r ts.
  Proof.
    destruct 1 as [ts _|n ty ts a r _ H|n ty d x r _ _ _ _].
    - apply incl_refl.
    - apply amount_rest in H. intros t Ht. right. right. apply H. exact Ht.
    - intros t Ht. right. right. exact Ht.
  Qed.

  (** What one item takes from the line. *)
  Definition takes (it : mitem) (ts : list token) (p : option piece) (r : list token) : Prop :=
    match it with
    | MReg k max => exists s n x, k = var_of s /\ ts = TIdent n :: r /\ register n x /\ x <= max /\ p = Some (PReg s x)
    | MCopReg k => exists s n x, k = cvar_of s /\ s <> CP /\ ts = TIdent n :: r /\ cop_register n x /\ p = Some (PCop s x)
    | MCopNumber => exists n x, ts = TIdent n :: r /\ cop_number n x /\ p = Some (PCop CP x)
    | MWriteback => (ts = TExclamation :: r /\ p = Some (PWriteback true)) \/
                    (~ next_is TExclamation ts /\ r = ts /\ p = Some (PWriteback false))
    | MPsr => (ts = TCaret :: r /\ p = Some (PUser true)) \/ (~ next_is TCaret ts /\ r = ts /\ p = Some (PUser false))
    | MSign => (ts = TPlus :: r /\ p = Some (PMinus false)) \/ (ts = TMinus :: r /\ p = Some (PMinus true)) \/
               (~ next_is TPlus ts /\ ~ next_is TMinus ts /\ r = ts /\ p = Some (PMinus false))
    | MPsrTransfer short => exists s n f j, ts = TIdent n :: r /\ psr_written s n f j /\ (short = true -> n = psr_name s) /\
                              p = Some (PStatus s (if short then None else Some f))
    | MList => exists l m, list_items ts l r /\ list_mask l m /\ p = Some (PList m)
    | MShift imm => exists s, shifted imm ts s r /\ p = Some (PShift s)
    | MPseudoShift ty => exists a, shift_by false ts a r /\ p = Some (PShift (Some (ty, a)))
    | MImm _ => exists e, number ts e r /\ p = Some (PNum NImm e)
    | MCopOp => exists e, number ts e r /\ p = Some (PNum NOpc1 e)
    | MCopInf => exists e, number ts e r /\ p = Some (PNum NOpc2 e)
    | MSymbol c optional => exists t, In (c, t) symbols /\ p = None /\
                              (ts = t :: r \/ (optional = true /\ ~ next_is t ts /\ r = ts))
    end.
  Definition reg_item (it : mitem) : Prop :=
    match it with
    | MReg k _ => exists s, k = var_of s
    | MCopReg k => exists s, k = cvar_of s /\ s <> CP
    | _ => True
    end.

  Lemma symbols_token c t : In (c, t) symbols <-> symbol_token c = Some t.
  Proof.
    split.
    - intros H. cbn in H. in_cases H; reflexivity.
    - unfold symbol_token. intros H.
      repeat match type of H with (if Ascii.eqb c ?k then _ else _) = _ =>
        destruct (Ascii.eqb_spec c k); [subst; injection H as <-; cbn; tauto|] end. discriminate.
  Qed.
  Lemma same_spec c t u : In (c, t) symbols -> same_type t u = true <-> u = t.
  Proof. intros H. cbn in H. in_cases H; destruct u; cbn [same_type]; split; congruence. Qed.
  Lemma next_peek c t ts : In (c, t) symbols -> next_is t ts <-> same_type t (peek ts) = true.
  Proof.
    intros I. rewrite (same_spec _ _ _ I). destruct ts as [|u ts]; cbn [next_is peek]; [|reflexivity].
    split; [intros []|]. intros <-. cbn in I. repeat (destruct I as [I|I]; [discriminate|]). destruct I.
  Qed.

  Lemma take_complete it ts p r : takes it ts p r -> forall v, run_item it v ts = Got (put_some it p v) r.
  Proof.
    intros H v. destruct it; cbn [takes] in H; cbn [ArmLineModel.run_item].
    - destruct H as (s & n & x & -> & -> & R & M & ->). unfold parseRegister. cbn [parseRegisterTable].
      rewrite (proj1 (reg_lookup _ _) R). replace (x <=? max) with true by lia. reflexivity.
    - destruct H as (s & n & x & -> & _ & -> & R & ->). unfold parseCop. cbn [parseRegisterTable].
      rewrite (proj1 (cop_lookup _ _) R). reflexivity.
    - destruct H as [(-> & ->)|(N & -> & ->)]; [reflexivity|]. destruct ts as [|[] ts]; try reflexivity. exfalso. apply N. reflexivity.
    - destruct H as [(-> & ->)|(N & -> & ->)]; [reflexivity|]. destruct ts as [|[] ts]; try reflexivity. exfalso. apply N. reflexivity.
    - destruct H as (s & n & f & j & -> & W & S & ->). cbn [parsePsrTransfer]. destruct short.
      + rewrite (proj2 (psr_short n s 15) (conj (S eq_refl) eq_refl)). reflexivity.
      + rewrite (psr_complete _ _ _ _ W). reflexivity.
    - destruct H as (l & m & I & M & ->). unfold parseRegisterList. pose proof (items_range _ _ _ I) as R.
      rewrite (list_complete _ _ _ I), Z.lor_0_l. apply (list_mask_of _ _ R) in M. subst m.
      pose proof (mask_range _ R) as B. change 65535 with (Z.ones 16). rewrite Z.land_comm, Z.land_ones by lia.
      rewrite Z.mod_small by (exact B). rewrite Z.eqb_refl. reflexivity.
    - destruct H as (s & H & ->). rewrite (shift_complete _ _ _ _ H). destruct s as [(ty & a)|]; reflexivity.
    - destruct H as (e & H & ->). unfold immediate. rewrite (proj1 (number_model _ _ _) H). reflexivity.
    - destruct H as (n & x & -> & R & ->). unfold parseCop. cbn [parseRegisterTable].
      rewrite (proj1 (cp_lookup _ _) R). reflexivity.
    - destruct H as (e & H & ->). unfold immediate. rewrite (proj1 (number_model _ _ _) H). reflexivity.
    - destruct H as (e & H & ->). unfold immediate. rewrite (proj1 (number_model _ _ _) H). reflexivity.
    - destruct H as (a & H & ->). unfold parsePseudoShift. rewrite (amount_complete _ _ _ _ H). reflexivity.
    - destruct H as [(-> & ->)|[(-> & ->)|(N1 & N2 & -> & ->)]]; try reflexivity.
      destruct ts as [|[] ts]; try reflexivity; exfalso; [apply N1|apply N2]; reflexivity.
    - destruct H as (t & I & -> & H). unfold matchSymbol. rewrite (proj1 (symbols_token _ _) I). cbn [put_some].
      destruct H as [->|(-> & N & ->)].
      + cbn [peek tl]. rewrite (proj2 (same_spec _ _ t I) eq_refl). reflexivity.
      + rewrite (next_peek _ _ _ I) in N. destruct (same_type t (peek ts)); [contradiction N; reflexivity|reflexivity].
  Qed.
  Lemma take_sound it v ts v' r : reg_item it -> run_item it v ts = Got v' r -> exists p, takes it ts p r.
  Proof.
    intros G H. destruct it; cbn [reg_item] in G; cbn [ArmLineModel.run_item] in H; cbn [takes].
    - unfold parseRegister in H. destruct ts as [|[] ts]; try discriminate. cbn [parseRegisterTable] in H.
      destruct (lookup n armRegisters) as [x|] eqn:L; [|discriminate]. destruct (Z.leb_spec x max); [|discriminate].
      injection H as _ <-. destruct G as (s & G). apply reg_lookup in L. do 4 eexists. repeat split; eauto.
    - unfold parseCop in H. destruct ts as [|[] ts]; try discriminate. cbn [parseRegisterTable] in H.
      destruct (lookup n armCopRegisters) as [x|] eqn:L; [|discriminate].
      injection H as _ <-. destruct G as (s & G & G'). apply cop_lookup in L. do 4 eexists. repeat split; eauto.
    - destruct ts as [|t ts].
      { injection H as _ <-. eexists. right. split; [intros []|]. split; reflexivity. }
      destruct t; injection H as _ <-; eexists; solve [left; split; reflexivity|right; split; [discriminate|split; reflexivity]].
    - destruct ts as [|t ts].
      { injection H as _ <-. eexists. right. split; [intros []|]. split; reflexivity. }
      destruct t; injection H as _ <-; eexists; solve [left; split; reflexivity|right; split; [discriminate|split; reflexivity]].
    - destruct ts as [|[] ts]; try discriminate. cbn [parsePsrTransfer] in H.
      destruct (psr_text short n) as [(s & f)|] eqn:P; [|discriminate]. injection H as _ <-. destruct short.
      + apply psr_short in P. destruct P as (-> & ->). exists (Some (PStatus s None)), s, (psr_name s), 15, false.
        repeat split. constructor.
      + destruct (psr_sound _ _ _ P) as (j & W). exists (Some (PStatus s (Some f))), s, n, f, j. repeat split; [exact W|discriminate].
    - unfold parseRegisterList in H. destruct (parse_list 0 ts) as [(m & r')|] eqn:P; [|discriminate].
      destruct (_ =? _); [|discriminate]. injection H as _ <-.
      destruct (list_sound _ _ _ _ _ (Nat.lt_succ_diag_r _) P) as (l & I). exists (Some (PList (mask_of l))), l, (mask_of l).
      split; [exact I|]. split; [|reflexivity]. apply list_mask_of; [|reflexivity]. eapply items_range; exact I.
    - destruct (shift_sound _ _ _ _ _ H) as (s & S). eauto.
    - unfold immediate in H. destruct (parseImmediate _ _ _ ts) as [(e & r')|] eqn:P; [|discriminate].
      injection H as _ <-. apply number_model in P. eauto.
    - unfold parseCop in H. destruct ts as [|[] ts]; try discriminate. cbn [parseRegisterTable] in H.
      destruct (lookup n armCopNumbers) as [x|] eqn:L; [|discriminate].
      injection H as _ <-. apply cp_lookup in L. do 3 eexists. repeat split; eauto.
    - unfold immediate in H. destruct (parseImmediate _ _ _ ts) as [(e & r')|] eqn:P; [|discriminate].
      injection H as _ <-. apply number_model in P. eauto.
    - unfold immediate in H. destruct (parseImmediate _ _ _ ts) as [(e & r')|] eqn:P; [|discriminate].
      injection H as _ <-. apply number_model in P. eauto.
    - unfold parsePseudoShift in H. destruct (amount_sound _ _ _ _ _ H) as (a & A). eauto.
    - destruct ts as [|t ts].
      { injection H as _ <-. eexists. right. right. split; [intros []|]. split; [intros []|]. split; reflexivity. }
      destruct t; injection H as _ <-; eexists;
        solve [left; split; reflexivity|right; left; split; reflexivity|
               right; right; split; [discriminate|split; [discriminate|split; reflexivity]]].
    - unfold matchSymbol in H. destruct (symbol_token c) as [t|] eqn:S; [|discriminate]. apply symbols_token in S.
      exists None, t. split; [exact S|]. split; [reflexivity|].
      destruct (same_type t (peek ts)) eqn:E.
      + injection H as _ <-. left. apply (next_peek _ _ _ S) in E. destruct ts as [|u ts]; [destruct E|]. cbn in E. subst. reflexivity.
      + destruct optional; [|discriminate]. injection H as _ <-. right. split; [reflexivity|]. split; [|reflexivity].
        rewrite (next_peek _ _ _ S), E. discriminate.
  Qed.
  Lemma item_crash it v ts : run_item it v ts = Crash -> exists n, In (TIdent n) ts /\ long_digits n.
  Proof.
    destruct it; cbn [ArmLineModel.run_item]; intros H; try (eapply shift_crash; exact H); exfalso; revert H.
    - unfold parseRegister. destruct (parseRegisterTable _ _) as [(? & ?)|]; [destruct (_ <=? _)|]; discriminate.
    - unfold parseCop. destruct (parseRegisterTable _ _) as [(? & ?)|]; discriminate.
    - destruct ts as [|[] ts]; discriminate.
    - destruct ts as [|[] ts]; discriminate.
    - destruct ts as [|[] ts]; try discriminate. cbn [parsePsrTransfer]. destruct (psr_text _ _) as [(? & ?)|]; discriminate.
    - unfold parseRegisterList. destruct (parse_list _ _) as [(? & ?)|]; [destruct (_ =? _)|]; discriminate.
    - unfold immediate. destruct (parseImmediate _ _ _ ts) as [(? & ?)|]; discriminate.
    - unfold parseCop. destruct (parseRegisterTable _ _) as [(? & ?)|]; discriminate.
    - unfold immediate. destruct (parseImmediate _ _ _ ts) as [(? & ?)|]; discriminate.
    - unfold immediate. destruct (parseImmediate _ _ _ ts) as [(? & ?)|]; discriminate.
    - unfold parsePseudoShift. apply amount_no_crash.
    - destruct ts as [|[] ts]; discriminate.
    - unfold matchSymbol. destruct (symbol_token c); [|discriminate]. destruct (same_type _ _); [discriminate|]. destruct optional; discriminate.
  Qed.
  Lemma list_rest ts l r : list_items ts l r -> incl r ts.
  Proof. induction 1; intros t Ht; cbn [In]; auto 8. Qed.
  Lemma take_rest it ts p r : takes it ts p r -> incl r ts.
  Proof.
    assert (C : forall (t : token) l, incl l (t :: l)) by (intros t l x Hx; right; exact Hx).
    destruct it; cbn [takes].
    - intros (s & n & x & _ & -> & _). apply C.
    - intros (s & n & x & _ & _ & -> & _). apply C.
    - intros [(-> & _)|(_ & -> & _)]; [apply C|apply incl_refl].
    - intros [(-> & _)|(_ & -> & _)]; [apply C|apply incl_refl].
    - intros (s & n & f & j & -> & _). apply C.
    - intros (l & m & H & _). eapply list_rest; exact H.
    - intros (s & H & _). eapply shift_rest; exact H.
    - intros (e & H & _). eapply number_rest; exact H.
    - intros (n & x & -> & _). apply C.
    - intros (e & H & _). eapply number_rest; exact H.
    - intros (e & H & _). eapply number_rest; exact H.
    - intros (a & H & _). eapply amount_rest; exact H.
    - intros [(-> & _)|[(-> & _)|(_ & _ & -> & _)]]; [apply C|apply C|apply incl_refl].
    - intros (t & _ & _ & [->|(_ & _ & ->)]); [apply C|apply incl_refl].
  Qed.

  (** * The loop *)

  Inductive chain : list mitem -> list token -> list piece -> list token -> Prop :=
  | ch_end r : chain [] (TSeparator :: r) [] r
  | ch_piece it its ts p ts' ps r : takes it ts (Some p) ts' -> chain its ts' ps r -> chain (it :: its) ts (p :: ps) r
  | ch_symbol it its ts ts' ps r : takes it ts None ts' -> chain its ts' ps r -> chain (it :: its) ts ps r.
  Definition is_symbol (it : mitem) : bool := match it with MSymbol _ _ => true | _ => false end.
  Fixpoint fill (its : list mitem) (ps : list piece) (v : vars) : vars :=
    match its with
    | [] => v
    | it :: r => if is_symbol it then fill r ps v
                 else match ps with p :: ps' => fill r ps' (put it p v) | [] => v end
    end.
  Lemma takes_symbol it ts p r : takes it ts p r -> is_symbol it = match p with None => true | Some _ => false end.
  Proof.
    destruct it; cbn [takes is_symbol]; intros H; repeat match goal with
      | H : exists _, _ |- _ => destruct H as (? & H) | H : _ \/ _ |- _ => destruct H as [H|H] end;
      repeat match goal with H : _ /\ _ |- _ => destruct H end; subst; reflexivity.
  Qed.
  Lemma chain_complete its ts ps r : chain its ts ps r -> forall v, run_items its v ts = Got (fill its ps v) r.
  Proof.
    induction 1 as [r|it its ts p ts' ps r T H IH|it its ts ts' ps r T H IH]; intros v; cbn [ArmLineModel.run_items fill].
    - reflexivity.
    - rewrite (take_complete _ _ _ _ T), (takes_symbol _ _ _ _ T). cbn [put_some]. apply IH.
    - rewrite (take_complete _ _ _ _ T), (takes_symbol _ _ _ _ T). cbn [put_some]. apply IH.
  Qed.
  Lemma chain_sound its : Forall reg_item its -> forall v ts v' r, run_items its v ts = Got v' r -> exists ps, chain its ts ps r.
  Proof.
    induction 1 as [|it its G F IH]; intros v ts v' r H; cbn [ArmLineModel.run_items] in H.
    - destruct ts as [|[] ts]; try discriminate. injection H as _ <-. eexists. constructor.
    - destruct (run_item it v ts) as [v1 ts1|v1|] eqn:R; try discriminate.
      destruct (take_sound _ _ _ _ _ G R) as (p & T). destruct (IH _ _ _ _ H) as (ps & P).
      destruct p as [p|]; [exists (p :: ps)|exists ps]; econstructor; eassumption.
  Qed.
  Lemma chain_crash its : Forall reg_item its -> forall v ts, run_items its v ts = Crash -> exists n, In (TIdent n) ts /\ long_digits n.
  Proof.
    induction 1 as [|it its G F IH]; intros v ts H; cbn [ArmLineModel.run_items] in H.
    - destruct ts as [|[] ts]; discriminate.
    - destruct (run_item it v ts) as [v1 ts1|v1|] eqn:R; try discriminate.
      + destruct (take_sound _ _ _ _ _ G R) as (p & T). destruct (IH _ _ H) as (n & I & L). exists n. split; [|exact L].
        eapply take_rest; eassumption.
      + eapply item_crash; exact R.
  Qed.

  (** * The syntax of a row *)

  Fixpoint mask_ok (m : string) : bool :=
    match m with
    | EmptyString => true
    | String c r =>
        if Ascii.eqb c "/" then
          match r with String k r' => match symbol_token k with Some _ => mask_ok r' | None => false end | EmptyString => false end
        else if existsb (Ascii.eqb c) ["d"; "s"; "n"; "m"; "P"; "S"; "j"; "z"]%char then
          match r with String k r' => mask_ok r' | EmptyString => false end
        else if existsb (Ascii.eqb c) ["D"; "N"; "M"; "W"; "p"; "R"; "I"; "i"; "X"; "Y"; "Z"; "v"]%char then mask_ok r
        else match symbol_token c with Some _ => mask_ok r | None => false end
    end.
  Lemma items_symbol o c t m : In (c, t) symbols -> items o (String c m) = MSymbol c o :: items false m.
  Proof. intros H. cbn in H. in_cases H; destruct o; reflexivity. Qed.
  Lemma items_optional m : items false (String "/" m) = items true m.
  Proof. reflexivity. Qed.
  Lemma lays_chain m ts ps r : lays m ts ps r -> chain (items false m) ts ps r.
  Proof.
    assert (P : forall it its ts p ts' ps r, takes it ts (Some p) ts' -> chain its ts' ps r -> chain (it :: its) ts (p :: ps) r)
      by (intros; econstructor; eassumption).
    induction 1.
    - constructor.
    - assert (E : items false (String c (String a m)) = MReg (var_of k) (reg_max a) :: items false m).
      { match goal with H : reg_letter _ _ |- _ => unfold reg_letter in H; cbn in H; in_cases H; reflexivity end. }
      rewrite E. eapply P; [|eassumption]. cbn [takes]. exists k, n, x. repeat split; auto.
      match goal with H : register _ _ |- _ => apply reg_range in H end. unfold reg_max.
      destruct (Ascii.eqb_spec a "1") as [->|]; [|lia]. match goal with H : "1"%char = _ -> _ |- _ => specialize (H eq_refl) end. lia.
    - match goal with H : cop_letter _ _ |- _ => unfold cop_letter in H; cbn in H; in_cases H end;
        (eapply P; [|eassumption]); cbn [takes]; [exists CD|exists CN|exists CM]; do 2 eexists; repeat split; eauto; discriminate.
    - eapply P; [|eassumption]. cbn [takes]. eauto 6.
    - eapply P; [|eassumption]. cbn [takes]. auto.
    - eapply P; [|eassumption]. cbn [takes]. auto.
    - eapply P; [|eassumption]. cbn [takes]. auto.
    - eapply P; [|eassumption]. cbn [takes]. auto.
    - eapply P; [|eassumption]. cbn [takes]. auto.
    - eapply P; [|eassumption]. cbn [takes]. auto.
    - eapply P; [|eassumption]. cbn [takes]. auto 6.
    - eapply P; [|eassumption]. cbn [takes]. exists spsr, n, f, j. repeat split; auto.
      intros E. apply Ascii.eqb_eq in E. auto.
    - eapply P; [|eassumption]. cbn [takes]. eauto.
    - eapply P; [|eassumption]. cbn [takes]. eauto.
    - eapply P; [|eassumption]. cbn [takes]. eauto.
    - match goal with H : num_letter _ _ |- _ => unfold num_letter in H; cbn in H; in_cases H end;
        (eapply P; [|eassumption]); cbn [takes]; eauto.
    - eapply P; [|eassumption]. cbn [takes]. eauto.
    - erewrite items_symbol by eassumption. eapply ch_symbol; [|eassumption]. cbn [takes]. eauto 6.
    - rewrite items_optional. erewrite items_symbol by eassumption. eapply ch_symbol; [|eassumption]. cbn [takes]. eauto 6.
    - rewrite items_optional. erewrite items_symbol by eassumption. eapply ch_symbol; [|eassumption]. cbn [takes]. eauto 8.
  Qed.
  Lemma chain_cons it its ts ps r : chain (it :: its) ts ps r ->
    exists p ts' ps', takes it ts p ts' /\ chain its ts' ps' r /\ ps = match p with Some x => x :: ps' | None => ps' end.
  Proof. inversion 1; subst; do 3 eexists; (split; [eassumption|]); split; eauto. Qed.

  Lemma chain_lays k : forall m ts ps r, (String.length m < k)%nat -> mask_ok m = true ->
    chain (items false m) ts ps r -> lays m ts ps r.
  Proof.
    induction k as [|k IH]; intros m ts ps r L M H; [lia|].
    destruct m as [|c m].
    { inversion H; subst. constructor. }
    cbn [String.length] in L. cbn [mask_ok] in M.
    destruct (Ascii.eqb_spec c "/") as [->|N0].
    { destruct m as [|a m]; [discriminate|]. destruct (symbol_token a) as [t|] eqn:S; [|discriminate].
      apply symbols_token in S. rewrite items_optional, (items_symbol _ _ _ _ S) in H.
      apply chain_cons in H. destruct H as (p & ts' & ps' & T & H & ->).
      apply IH in H; [|cbn [String.length] in L; lia|exact M]. cbn [takes] in T.
      destruct T as (t' & S' & -> & [->|(_ & N & ->)]); [eapply l_optional; eassumption|eapply l_omitted; eassumption]. }
    destruct (existsb (Ascii.eqb c) ["d"; "s"; "n"; "m"; "P"; "S"; "j"; "z"]%char) eqn:E1.
    { destruct m as [|a m]; [discriminate|]. cbn [existsb] in E1. rewrite !orb_true_iff in E1.
      assert (G : forall ts' ps', chain (items false m) ts' ps' r -> lays m ts' ps' r).
      { intros ts' ps' C. apply IH; [cbn [String.length] in L; lia|exact M|exact C]. }
      assert (RM : forall x, x <= reg_max a -> a = "1"%char -> x <> 15).
      { intros x Hx ->. cbn in Hx. lia. }
      clear IH N0.
      destruct E1 as [E|[E|[E|[E|[E|[E|[E|[E|E]]]]]]]]; try discriminate; apply Ascii.eqb_eq in E; subst c;
        change (items false (String ?c (String a m))) with (items false (String c (String a m))) in H;
        lazymatch type of H with chain (items false (String ?c (String a m))) _ _ _ =>
          let X := fresh "X" in eassert (X : items false (String c (String a m)) = _ :: items false m) by reflexivity;
          rewrite X in H; clear X end;
        apply chain_cons in H; destruct H as (p & ts' & ps' & T & H & ->); apply G in H; cbn [takes] in T.
      1-4: destruct T as (s & n & x & E & -> & R & X & ->); destruct s; try discriminate E;
           (eapply l_reg; [unfold reg_letter; cbn; tauto|eassumption|apply RM; exact X|exact H]).
      - destruct T as (s & n & f & j & -> & W & S & ->). eapply l_status; [eassumption| |exact H].
        intros ->. apply S. reflexivity.
      - destruct T as (s & S & ->). eapply l_shift; eassumption.
      - destruct T as (e & S & ->). eapply l_len; eassumption.
      - destruct T as (s & S & ->). eapply l_amount; eassumption. }
    assert (G : forall ts' ps', mask_ok m = true -> chain (items false m) ts' ps' r -> lays m ts' ps' r).
    { intros ts' ps' M' C. apply IH; [lia|exact M'|exact C]. }
    clear IH.
    destruct (existsb (Ascii.eqb c) ["D"; "N"; "M"; "W"; "p"; "R"; "I"; "i"; "X"; "Y"; "Z"; "v"]%char) eqn:E2.
    { cbn [existsb] in E2. rewrite !orb_true_iff in E2. specialize (fun ts' ps' => G ts' ps' M). clear E1 N0.
      destruct E2 as [E|[E|[E|[E|[E|[E|[E|[E|[E|[E|[E|[E|E]]]]]]]]]]]]; try discriminate; apply Ascii.eqb_eq in E; subst c;
        lazymatch type of H with chain (items false (String ?c m)) _ _ _ =>
          let X := fresh "X" in eassert (X : items false (String c m) = _ :: items false m) by reflexivity;
          rewrite X in H; clear X end;
        apply chain_cons in H; destruct H as (p & ts' & ps' & T & H & ->); apply G in H; cbn [takes] in T.
      1-3: destruct T as (s & n & x & E & NP & -> & R & ->); destruct s; try discriminate E; try (contradiction NP; reflexivity);
           (eapply l_cop; [unfold cop_letter; cbn; tauto|eassumption|exact H]).
      - destruct T as [(-> & ->)|(N & -> & ->)]; [apply l_wb|apply l_no_wb]; assumption.
      - destruct T as [(-> & ->)|(N & -> & ->)]; [apply l_user|apply l_no_user]; assumption.
      - destruct T as (l & x & I & X & ->). eapply l_list; eassumption.
      - destruct T as (e & S & ->). eapply l_num; [unfold num_letter; cbn; tauto|eassumption|eassumption].
      - destruct T as (e & S & ->). eapply l_num; [unfold num_letter; cbn; tauto|eassumption|eassumption].
      - destruct T as (n & x & -> & R & ->). eapply l_cp; eassumption.
      - destruct T as (e & S & ->). eapply l_num; [unfold num_letter; cbn; tauto|eassumption|eassumption].
      - destruct T as (e & S & ->). eapply l_num; [unfold num_letter; cbn; tauto|eassumption|eassumption].
      - destruct T as [(-> & ->)|[(-> & ->)|(N & N' & -> & ->)]]; [apply l_plus|apply l_minus|apply l_no_sign]; assumption. }
    destruct (symbol_token c) as [t|] eqn:S; [|discriminate]. apply symbols_token in S.
    rewrite (items_symbol _ _ _ _ S) in H. apply chain_cons in H. destruct H as (p & ts' & ps' & T & H & ->).
    apply (G _ _ M) in H. cbn [takes] in T. destruct T as (t' & S' & -> & [->|(? & _)]); [|discriminate].
    eapply l_symbol; eassumption.
  Qed.
  Lemma items_reg k : forall o m, (String.length m < k)%nat -> Forall reg_item (items o m).
  Proof.
    induction k as [|k IH]; intros o m L; [lia|]. destruct m as [|c m]; [constructor|]. cbn [String.length] in L. cbn [items].
    assert (G : forall o', Forall reg_item (items o' m)) by (intros o'; apply IH; lia).
    assert (A : forall f : ascii -> mitem, (forall a, reg_item (f a)) ->
      Forall reg_item match m with EmptyString => [f zero] | String a r => f a :: items false r end).
    { intros f F. destruct m as [|a r]; [repeat constructor; apply F|]. cbn [String.length] in L. constructor; [apply F|apply IH; lia]. }
    destruct (_ && _); [apply G|].
    destruct (Ascii.eqb c "d"); [apply (A (fun k => MReg VRd (reg_max k))); intros a; exists RD; reflexivity|].
    destruct (Ascii.eqb c "s"); [apply (A (fun k => MReg VRs (reg_max k))); intros a; exists RS; reflexivity|].
    destruct (Ascii.eqb c "n"); [apply (A (fun k => MReg VRn (reg_max k))); intros a; exists RN; reflexivity|].
    destruct (Ascii.eqb c "m"); [apply (A (fun k => MReg VRm (reg_max k))); intros a; exists RM; reflexivity|].
    destruct (Ascii.eqb c "D"); [constructor; [exists CD; split; [reflexivity|discriminate]|apply G]|].
    destruct (Ascii.eqb c "N"); [constructor; [exists CN; split; [reflexivity|discriminate]|apply G]|].
    destruct (Ascii.eqb c "M"); [constructor; [exists CM; split; [reflexivity|discriminate]|apply G]|].
    repeat match goal with |- Forall _ (if ?b then _ else _) => destruct b; [solve
      [apply (A (fun k => MPsrTransfer (Ascii.eqb k "1"))); intros a; exact Logic.I
      |apply (A (fun k => MShift (Ascii.eqb k "1"))); intros a; exact Logic.I
      |apply (A (fun k => MImm (char_value k))); intros a; exact Logic.I
      |apply (A (fun k => MPseudoShift (char_value k))); intros a; exact Logic.I
      |constructor; [exact Logic.I|apply G]]|] end.
    constructor; [exact Logic.I|apply G].
  Qed.

  Lemma layout_complete m ts ps r v : lays m ts ps r -> run_items (items false m) v ts = Got (fill (items false m) ps v) r.
  Proof. intros H. apply chain_complete, lays_chain, H. Qed.
  Lemma layout_sound m v ts v' r : mask_ok m = true -> run_items (items false m) v ts = Got v' r ->
    exists ps, lays m ts ps r /\ v' = fill (items false m) ps v.
  Proof.
    intros M H. destruct (chain_sound _ (items_reg _ false m (Nat.lt_succ_diag_r _)) _ _ _ _ H) as (ps & C).
    pose proof (chain_lays _ _ _ _ _ (Nat.lt_succ_diag_r _) M C) as Y. exists ps. split; [exact Y|].
    rewrite (layout_complete _ _ _ _ v Y) in H. injection H as <-. reflexivity.
  Qed.
  Lemma layout_crash m v ts : run_items (items false m) v ts = Crash -> exists n, In (TIdent n) ts /\ long_digits n.
  Proof. apply chain_crash, (items_reg _ false m (Nat.lt_succ_diag_r _)). Qed.
End Steps.

Lemma masks_ok : forallb (fun o => mask_ok (op_mask o)) ArmOpcodes = true.
Proof. vm_compute. reflexivity. Qed.
