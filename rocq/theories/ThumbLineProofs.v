(** Thumb lines: the parser finds the first row whose syntax the line fits. *)

Require Import ZArith Lia Bool List String Ascii.
Require Import ZifyBool.
Require Import Verif.Ints Verif.Res Verif.ExprModel Verif.ParseModel Verif.ArmModel Verif.ThumbModel Verif.ArmLineModel Verif.ArmLineSpec
  Verif.ArmOperandProofs Verif.ArmLayoutProofs Verif.ThumbLineModel Verif.ThumbLineSpec.
Import ListNotations.
Local Open Scope Z_scope.

Lemma code_number c : code c = number_of_char c.
Proof. unfold code, number_of_char, nat_of_ascii. lia. Qed.
Lemma code_range c : 0 <= code c < 256.
Proof. destruct c as [[] [] [] [] [] [] [] []]; vm_compute; split; congruence. Qed.

(** * Register lists *)

Lemma land_same m x : Z.land m x = x <-> forall i, 0 <= i -> Z.testbit x i = true -> Z.testbit m i = true.
Proof.
  split.
  - intros E i Hi B. rewrite <- E, Z.land_spec in B. apply andb_true_iff in B. apply B.
  - intros H. apply Z.bits_inj'. intros i Hi. rewrite Z.land_spec. specialize (H i Hi).
    destruct (Z.testbit x i); [rewrite H by reflexivity; reflexivity|apply andb_false_r].
Qed.
Lemma bits_range x k i : 0 <= x < 2 ^ k -> 0 <= k <= i -> Z.testbit x i = false.
Proof.
  intros Hx Hi. destruct (Z.eqb_spec x 0) as [->|]; [apply Z.testbit_0_l|]. apply Z.bits_above_log2; [lia|].
  apply Z.lt_le_trans with k; [|lia]. apply Z.log2_lt_pow2; lia.
Qed.
Lemma accepted_spec signed a b x : code a = 255 -> 0 <= x < 65536 ->
  list_accepted signed (code a) (code b) x = true <-> signed = true \/ may_list a b x.
Proof.
  intros A Hx. unfold list_accepted. rewrite Z.eqb_eq. destruct signed; cbn [char_value].
  - rewrite A. change (ThumbModel.char_value true 255) with (-1). rewrite Z.lor_m1_l, Z.land_m1_l. tauto.
  - change (ThumbModel.char_value false) with (fun z : Z => z). cbv beta. rewrite land_same.
    assert (B : forall i, 0 <= i < 16 -> Z.testbit (Z.lor (code a) (Z.shiftl (code b) 8)) i =
      Z.testbit (number_of_char (if i <? 8 then a else b)) (i mod 8)).
    { intros i Hi. rewrite Z.lor_spec, Z.shiftl_spec by lia. rewrite <- code_number. destruct (Z.ltb_spec i 8).
      - rewrite (Z.testbit_neg_r _ (i - 8)) by lia. rewrite Z.mod_small by lia. apply orb_false_r.
      - rewrite (bits_range (code a) 8 i) by (try apply code_range; lia). replace (i mod 8) with (i - 8) by (apply Z.mod_unique with 1; lia). reflexivity. }
    split.
    + intros H. right. intros i Hi T. rewrite <- B by lia. apply H; [lia|exact T].
    + intros [E|M]; [discriminate|]. intros i Hi T. destruct (Z.ltb_spec i 16).
      * rewrite B by lia. apply M; [lia|exact T].
      * rewrite (bits_range x 16 i) in T by lia. discriminate.
Qed.
Lemma list_model ts m r : parse_list 0 ts = Some (m, r) <-> exists l, ArmLineSpec.list_items ts l r /\ list_mask l m.
Proof.
  split.
  - intros H. destruct (list_sound (S (List.length ts)) ts 0 m r (Nat.lt_succ_diag_r _) H) as (l & L). exists l. split; [exact L|].
    rewrite (list_complete _ _ _ L) in H. assert (E : m = Z.lor 0 (mask_of l)) by congruence. rewrite Z.lor_0_l in E. subst m. apply list_mask_of; [|reflexivity].
    eapply items_range; exact L.
  - intros (l & L & M). rewrite (list_complete _ _ _ L), Z.lor_0_l. apply list_mask_of in M; [|eapply items_range; exact L].
    subst. reflexivity.
Qed.

(** * Operands *)

Definition slot_of (k : tplace) : tslot := match k with PD => SD | PS => SS | PN => SN | PO => SO end.
Definition tput (p : tpiece) (v : tvars) : tvars :=
  match p with
  | QReg k x => tset (slot_of k) x v
  | QList x => tset_list x v
  | QNum n e => tset_num e n v
  end.
Definition tfill (ps : list tpiece) (v : tvars) : tvars := fold_left (fun v p => tput p v) ps v.

(** Masks as they are in the table. *)
Fixpoint tmask_ok (m : string) : bool :=
  match m with
  | EmptyString => true
  | String c r =>
      if Ascii.eqb c "/" then match r with String k r' => match symbol_token k with Some _ => tmask_ok r' | None => false end | EmptyString => false end
      else if Ascii.eqb c "r" then match r with String _ r' => tmask_ok r' | EmptyString => false end
      else if Ascii.eqb c "R" then match r with String a (String _ r') => Z.eqb (code a) 255 && tmask_ok r' | _ => false end
      else if Ascii.eqb c "I" || Ascii.eqb c "i" then match r with String _ r' => tmask_ok r' | EmptyString => false end
      else if Ascii.eqb c "d" || Ascii.eqb c "s" || Ascii.eqb c "n" || Ascii.eqb c "o" || Ascii.eqb c "D" || Ascii.eqb c "S" then tmask_ok r
      else match symbol_token c with Some _ => tmask_ok r | None => false end
  end%char.
Lemma tmasks_ok : forallb (fun o => tmask_ok (t_mask o)) ThumbOpcodes = true.
Proof. vm_compute. reflexivity. Qed.

Section Steps.
  Variable isfun : string -> bool.
  Variables file section : Z.
  Variable signed : bool.
  Notation tlays := (tlays isfun file section signed).
  Notation run_mask := (run_mask isfun file section signed).

  Lemma run_symbol c t b m v ts : In (c, t) symbols -> run_mask b (String c m) v ts = tsymbol c b v ts (run_mask false m).
  Proof. intros H. cbn in H. in_cases H; reflexivity. Qed.
  Lemma run_slash m v ts : run_mask false (String "/" m) v ts = run_mask true m v ts.
  Proof. reflexivity. Qed.

  Lemma lays_run m ts ps r : tlays m ts ps r -> tmask_ok m = true -> forall v, run_mask false m v ts = TGot (tfill ps v) r.
  Proof.
    induction 1 as [r|c k m n x ts ps r C R L H IH|c k m n x ts ps r C R H IH|a m n ts ps r R H IH
                   |a b m ts l x ts' ps r LI LM A H IH|c a m ts e ts' ps r C N H IH
                   |c t m ts ps r S H IH|c t m ts ps r S H IH|c t m ts ps r S N H IH]; intros K v.
    - reflexivity.
    - unfold low_letter in C. cbn in C.
      in_cases C; cbn [run_mask Ascii.eqb Bool.eqb andb]; unfold tregister; cbn [parseRegisterTable];
        rewrite (proj1 (reg_lookup _ _) R); replace (x <=? 7) with true by lia; rewrite IH by exact K; reflexivity.
    - pose proof (reg_range _ _ R). unfold any_letter in C. cbn in C.
      in_cases C; cbn [run_mask Ascii.eqb Bool.eqb andb]; unfold tregister; cbn [parseRegisterTable];
        rewrite (proj1 (reg_lookup _ _) R); replace (x <=? 15) with true by lia; rewrite IH by exact K; reflexivity.
    - cbn [run_mask Ascii.eqb Bool.eqb andb]. unfold tforced. cbn [parseRegisterTable].
      rewrite (proj1 (reg_lookup _ _) R), code_number, Z.eqb_refl. rewrite IH by exact K. reflexivity.
    - change ((code a =? 255) && tmask_ok m = true) in K. apply andb_true_iff in K. destruct K as (K1 & K2).
      cbn [run_mask Ascii.eqb Bool.eqb andb]. unfold tlist. rewrite (proj2 (list_model _ _ _) (ex_intro _ l (conj LI LM))).
      assert (X : 0 <= x < 65536) by apply LM. rewrite (proj2 (accepted_spec signed a b x ltac:(lia) X) A). rewrite IH by exact K2. reflexivity.
    - destruct C as [<-|[<-|[]]]; cbn [run_mask Ascii.eqb Bool.eqb andb orb]; unfold tnumber;
        rewrite (proj1 (number_model _ _ _ _ _ _) N), code_number; rewrite IH by exact K; reflexivity.
    - rewrite (run_symbol _ _ _ _ _ _ S). unfold tsymbol. rewrite (proj1 (symbols_token _ _) S).
      rewrite (proj1 (next_peek _ _ (t :: ts) S) eq_refl). cbn [tl]. apply IH.
      cbn in S. in_cases S; exact K.
    - rewrite run_slash, (run_symbol _ _ _ _ _ _ S). unfold tsymbol. rewrite (proj1 (symbols_token _ _) S).
      rewrite (proj1 (next_peek _ _ (t :: ts) S) eq_refl). cbn [tl]. apply IH.
      cbn in S. in_cases S; exact K.
    - rewrite run_slash, (run_symbol _ _ _ _ _ _ S). unfold tsymbol. rewrite (proj1 (symbols_token _ _) S).
      rewrite (next_peek _ _ _ S) in N. destruct (same_type t (peek ts)); [contradiction N; reflexivity|]. apply IH.
      cbn in S. in_cases S; exact K.
  Qed.

  Lemma run_lays k : forall m v ts v' r, (String.length m < k)%nat -> tmask_ok m = true -> run_mask false m v ts = TGot v' r ->
    exists ps, tlays m ts ps r.
  Proof.
    induction k as [|k IH]; intros m v ts v' r L K H; [lia|]. destruct m as [|c m].
    { cbn [ThumbLineModel.run_mask] in H. destruct ts as [|[] ts]; try discriminate. injection H as _ <-. exists []. constructor. }
    cbn [String.length] in L.
    assert (reg : forall s max, tregister s max v ts (run_mask false m) = TGot v' r ->
      tmask_ok m = true -> exists n x ts' ps, ts = TIdent n :: ts' /\ register n x /\ x <= max /\ tlays m ts' ps r).
    { intros s max E K'. unfold tregister in E. destruct ts as [|[] ts]; try discriminate. cbn [parseRegisterTable] in E.
      destruct (lookup n armRegisters) as [x|] eqn:X; [|discriminate]. apply reg_lookup in X.
      destruct (x <=? max) eqn:M; [|discriminate]. apply IH in E; [|lia|exact K']. destruct E as (ps & E).
      exists n, x, ts, ps. repeat split; auto. lia. }
    assert (sym : forall b c' m' t, (String.length m' < k)%nat -> tmask_ok m' = true -> In (c', t) symbols ->
      tsymbol c' b v ts (run_mask false m') = TGot v' r ->
      (exists ts' ps, ts = t :: ts' /\ tlays m' ts' ps r) \/ (b = true /\ ~ next_is t ts /\ exists ps, tlays m' ts ps r)).
    { intros b c' m' t L' K' S E. unfold tsymbol in E. rewrite (proj1 (symbols_token _ _) S) in E.
      pose proof (next_peek _ _ ts S) as P. destruct (same_type t (peek ts)).
      - left. apply IH in E; [|exact L'|exact K']. destruct E as (ps & E). destruct P as (_ & P). specialize (P eq_refl).
        destruct ts as [|t' ts]; [destruct P|]. cbn in P. subst t'. exists ts, ps. split; [reflexivity|exact E].
      - right. destruct b; [|discriminate]. apply IH in E; [|exact L'|exact K']. split; [reflexivity|]. split; [|exact E].
        intros N. apply P in N. discriminate. }
    cbn [tmask_ok] in K.
    destruct (Ascii.eqb_spec c "/") as [->|N0].
    { rewrite run_slash in H. destruct m as [|c' m']; [discriminate|]. cbn [String.length] in L.
      destruct (symbol_token c') as [t|] eqn:S; [|discriminate]. apply symbols_token in S.
      rewrite (run_symbol _ _ _ _ _ _ S) in H. destruct (sym true c' m' t ltac:(lia) K S H) as [(ts' & ps & -> & E)|(_ & N & ps & E)].
      - exists ps. eapply t_optional; eassumption.
      - exists ps. eapply t_omitted; eassumption. }
    cbn [ThumbLineModel.run_mask] in H. rewrite (proj2 (Ascii.eqb_neq _ _) N0) in H. cbn [andb] in H.
    destruct (Ascii.eqb_spec c "d") as [->|N1].
    { destruct (reg _ _ H K) as (n & x & ts' & ps & -> & R & M & E). eexists. eapply (t_low _ _ _ _ _ PD); [cbn; tauto|exact R|exact M|exact E]. }
    destruct (Ascii.eqb_spec c "s") as [->|N2].
    { destruct (reg _ _ H K) as (n & x & ts' & ps & -> & R & M & E). eexists. eapply (t_low _ _ _ _ _ PS); [cbn; tauto|exact R|exact M|exact E]. }
    destruct (Ascii.eqb_spec c "n") as [->|N3].
    { destruct (reg _ _ H K) as (n & x & ts' & ps & -> & R & M & E). eexists. eapply (t_low _ _ _ _ _ PN); [cbn; tauto|exact R|exact M|exact E]. }
    destruct (Ascii.eqb_spec c "o") as [->|N4].
    { destruct (reg _ _ H K) as (n & x & ts' & ps & -> & R & M & E). eexists. eapply (t_low _ _ _ _ _ PO); [cbn; tauto|exact R|exact M|exact E]. }
    destruct (Ascii.eqb_spec c "D") as [->|N5].
    { destruct (reg _ _ H K) as (n & x & ts' & ps & -> & R & M & E). eexists. eapply (t_any _ _ _ _ _ PD); [cbn; tauto|exact R|exact E]. }
    destruct (Ascii.eqb_spec c "S") as [->|N6].
    { destruct (reg _ _ H K) as (n & x & ts' & ps & -> & R & M & E). eexists. eapply (t_any _ _ _ _ _ PS); [cbn; tauto|exact R|exact E]. }
    destruct (Ascii.eqb_spec c "r") as [->|N7].
    { destruct m as [|a m]; [discriminate|]. cbn [String.length] in L. unfold tforced in H. destruct ts as [|[] ts]; try discriminate.
      cbn [parseRegisterTable] in H. destruct (lookup n armRegisters) as [x|] eqn:X; [|discriminate]. apply reg_lookup in X.
      destruct (Z.eqb_spec (code a) x) as [<-|]; [|discriminate]. apply IH in H; [|lia|exact K]. destruct H as (ps & E).
      exists ps. rewrite code_number in X. apply t_given; assumption. }
    destruct (Ascii.eqb_spec c "R") as [->|N8].
    { destruct m as [|a [|b m]]; try discriminate. cbn [String.length] in L. apply andb_true_iff in K. destruct K as (K1 & K2).
      unfold tlist in H. destruct (parse_list 0 ts) as [(x & r')|] eqn:P; [|discriminate]. apply list_model in P. destruct P as (l & LI & LM).
      destruct (list_accepted signed (code a) (code b) x) eqn:A; [|discriminate].
      apply accepted_spec in A; [|lia|apply LM]. apply IH in H; [|lia|exact K2]. destruct H as (ps & E).
      eexists. eapply t_list; eassumption. }
    destruct (Ascii.eqb c "I" || Ascii.eqb c "i")%char eqn:N9.
    { destruct m as [|a m]; [discriminate|]. cbn [String.length] in L. unfold tnumber in H.
      destruct (parseImmediate isfun file section ts) as [(e & r')|] eqn:P; [|discriminate]. apply number_model in P.
      apply IH in H; [|lia|exact K]. destruct H as (ps & E). eexists. eapply t_num; [|exact P|exact E].
      apply orb_true_iff in N9. destruct N9 as [Q|Q]; apply Ascii.eqb_eq in Q; subst; cbn; tauto. }
    cbn [orb] in K.
    destruct (symbol_token c) as [t|] eqn:S; [|discriminate]. apply symbols_token in S.
    destruct (sym false c m t ltac:(lia) K S H) as [(ts' & ps & -> & E)|(N & _)]; [|discriminate].
    exists ps. eapply t_symbol; eassumption.
  Qed.

  Lemma mask_of_row o : In o ThumbOpcodes -> tmask_ok (t_mask o) = true.
  Proof. intros H. pose proof tmasks_ok as A. rewrite forallb_forall in A. exact (A o H). Qed.

  (** A line fits a row in one way only: the operands can be computed. *)
  Definition add_piece (p : tpiece) (x : option (list tpiece * list token)) : option (list tpiece * list token) :=
    match x with Some (ps, r) => Some (p :: ps, r) | None => None end.
  Fixpoint pieces (optional : bool) (m : string) (ts : list token) : option (list tpiece * list token) :=
    let reg (k : tplace) (next : list token -> option (list tpiece * list token)) :=
      match parseRegisterTable ts armRegisters with Some (n, r) => add_piece (QReg k n) (next r) | None => None end in
    match m with
    | EmptyString => match ts with TSeparator :: r => Some ([], r) | _ => None end
    | String c r =>
        if Ascii.eqb c "/" && negb optional then pieces true r ts
        else if Ascii.eqb c "d" || Ascii.eqb c "D" then reg PD (pieces false r)
        else if Ascii.eqb c "s" || Ascii.eqb c "S" then reg PS (pieces false r)
        else if Ascii.eqb c "n" then reg PN (pieces false r)
        else if Ascii.eqb c "o" then reg PO (pieces false r)
        else if Ascii.eqb c "r" then match r with String a r' => pieces false r' (tl ts) | EmptyString => None end
        else if Ascii.eqb c "R" then
          match r with
          | String a (String b r') => match parse_list 0 ts with Some (x, ts') => add_piece (QList x) (pieces false r' ts') | None => None end
          | _ => None
          end
        else if Ascii.eqb c "I" || Ascii.eqb c "i" then
          match r with
          | String a r' => match parseImmediate isfun file section ts with
                           | Some (e, ts') => add_piece (QNum (number_of_char a) e) (pieces false r' ts')
                           | None => None
                           end
          | EmptyString => None
          end
        else match symbol_token c with
             | Some t => if same_type t (peek ts) then pieces false r (tl ts) else pieces false r ts
             | None => None
             end
    end%char.
  Lemma pieces_symbol c t b m ts : In (c, t) symbols -> pieces b (String c m) ts =
    if same_type t (peek ts) then pieces false m (tl ts) else pieces false m ts.
  Proof. intros H. cbn in H. in_cases H; reflexivity. Qed.
  Lemma lays_pieces m ts ps r : tlays m ts ps r -> pieces false m ts = Some (ps, r).
  Proof.
    induction 1 as [r|c k m n x ts ps r C R L H IH|c k m n x ts ps r C R H IH|a m n ts ps r R H IH
                   |a b m ts l x ts' ps r LI LM A H IH|c a m ts e ts' ps r C N H IH
                   |c t m ts ps r S H IH|c t m ts ps r S H IH|c t m ts ps r S N H IH].
    - reflexivity.
    - unfold low_letter in C. cbn in C.
      in_cases C; cbn [pieces Ascii.eqb Bool.eqb andb orb parseRegisterTable]; rewrite (proj1 (reg_lookup _ _) R), IH; reflexivity.
    - unfold any_letter in C. cbn in C.
      in_cases C; cbn [pieces Ascii.eqb Bool.eqb andb orb parseRegisterTable]; rewrite (proj1 (reg_lookup _ _) R), IH; reflexivity.
    - cbn [pieces Ascii.eqb Bool.eqb andb orb tl]. exact IH.
    - cbn [pieces Ascii.eqb Bool.eqb andb orb]. rewrite (proj2 (list_model _ _ _) (ex_intro _ l (conj LI LM))), IH. reflexivity.
    - destruct C as [<-|[<-|[]]]; cbn [pieces Ascii.eqb Bool.eqb andb orb]; rewrite (proj1 (number_model _ _ _ _ _ _) N), IH; reflexivity.
    - rewrite (pieces_symbol _ _ _ _ _ S), (proj1 (next_peek _ _ (t :: ts) S) eq_refl). exact IH.
    - change (pieces true (String c m) (t :: ts) = Some (ps, r)).
      rewrite (pieces_symbol _ _ _ _ _ S), (proj1 (next_peek _ _ (t :: ts) S) eq_refl). exact IH.
    - change (pieces true (String c m) ts = Some (ps, r)). rewrite (pieces_symbol _ _ _ _ _ S).
      rewrite (next_peek _ _ _ S) in N. destruct (same_type t (peek ts)); [contradiction N; reflexivity|]. exact IH.
  Qed.
  Lemma treads_once arch ts o ps r ps' r' : treads isfun file section signed arch ts o ps r ->
    treads isfun file section signed arch ts o ps' r' -> ps = ps' /\ r = r'.
  Proof.
    intros (_ & ts1 & -> & H) (_ & ts2 & E & H'). injection E as <-. apply lays_pieces in H. apply lays_pieces in H'.
    rewrite H in H'. injection H' as <- <-. split; reflexivity.
  Qed.

  (** * Rows *)

  Notation treads := (treads isfun file section signed).
  Notation tfirst := (tfirst isfun file section signed).
  Lemma first_in arch ts o ps r : tfirst arch ts o ps r -> In o ThumbOpcodes.
  Proof. intros (pre & post & -> & _). apply in_elt. Qed.
  Lemma tfirst_once arch ts o ps r o' ps' r' : tfirst arch ts o ps r -> tfirst arch ts o' ps' r' ->
    o = o' /\ ps = ps' /\ r = r'.
  Proof.
    intros (pre & post & E & R & F) (pre' & post' & E' & R' & F').
    assert (X : o = o').
    { rewrite E in E'. clear E. revert pre' E' F'. induction pre as [|a pre IH]; intros pre' E' F'.
      - destruct pre' as [|b pre']; cbn in E'; [injection E' as -> _; reflexivity|].
        injection E' as <- _. exfalso. eapply F'; [left; reflexivity|exact R].
      - destruct pre' as [|b pre']; cbn in E'.
        + injection E' as -> _. exfalso. eapply F; [left; reflexivity|exact R'].
        + injection E' as <- E'. eapply IH; [intros; apply F; right; assumption|exact E'|intros; apply F'; right; assumption]. }
    subst o'. split; [reflexivity|]. eapply treads_once; eassumption.
  Qed.

  Lemma rows_spec arch name ts : forall rows pre v, ThumbOpcodes = pre ++ rows ->
    (forall o' ps' r', In o' pre -> ~ treads arch (TIdent name :: ts) o' ps' r') ->
    match thumb_rows isfun file section signed arch name rows v ts with
    | Some (o, v', r) => exists ps v0, tfirst arch (TIdent name :: ts) o ps r /\ v' = tfill ps v0
    | None => forall o ps r, In o ThumbOpcodes -> ~ treads arch (TIdent name :: ts) o ps r
    end.
  Proof.
    induction rows as [|o rows IH]; intros pre v E P; cbn [thumb_rows].
    - rewrite app_nil_r in E. subst pre. exact P.
    - assert (I : In o ThumbOpcodes) by (rewrite E; apply in_elt). pose proof (mask_of_row o I) as K.
      assert (next : forall v', (forall ps r, ~ treads arch (TIdent name :: ts) o ps r) ->
        match thumb_rows isfun file section signed arch name rows v' ts with
        | Some (o, v', r) => exists ps v0, tfirst arch (TIdent name :: ts) o ps r /\ v' = tfill ps v0
        | None => forall o ps r, In o ThumbOpcodes -> ~ treads arch (TIdent name :: ts) o ps r
        end).
      { intros v' N. apply (IH (pre ++ [o])); [rewrite <- app_assoc; exact E|].
        intros o' ps' r' Q. apply in_app_iff in Q. destruct Q as [Q|[<-|[]]]; [apply P; exact Q|apply N]. }
      destruct (thas o THUMB_ARM9 && is_gba arch) eqn:A.
      { apply next. intros ps r (B & _). apply B. apply andb_true_iff in A. destruct A as (A1 & A2). split; [exact A1|].
        destruct arch; try discriminate; reflexivity. }
      destruct (String.eqb_spec name (t_name o)) as [->|N].
      2:{ apply next. intros ps r (_ & ts' & Q & _). injection Q as Q _. congruence. }
      destruct (run_mask false (t_mask o) v ts) as [v' r|v'] eqn:X.
      + destruct (run_lays _ _ _ _ _ _ (Nat.lt_succ_diag_r _) K X) as (ps & L). exists ps, v. split.
        * exists pre, rows. split; [exact E|]. split; [|exact P]. split.
          -- intros (B1 & B2). subst arch. rewrite B1 in A. discriminate.
          -- exists ts. split; [reflexivity|exact L].
        * rewrite (lays_run _ _ _ _ L K) in X. injection X as <-. reflexivity.
      + apply next. intros ps r (_ & ts' & Q & L). injection Q as <-. rewrite (lays_run _ _ _ _ L K) in X. discriminate.
  Qed.
  Lemma opcode_spec arch v ts :
    match parseThumbOpcode isfun file section signed arch v ts with
    | Some (o, v', r) => exists ps v0, tfirst arch ts o ps r /\ v' = tfill ps v0
    | None => forall o ps r, In o ThumbOpcodes -> ~ treads arch ts o ps r
    end.
  Proof.
    unfold parseThumbOpcode. destruct ts as [|t ts]; [intros o ps r _ (_ & ts' & Q & _); discriminate|].
    destruct t; try (intros o ps r _ (_ & ts' & Q & _); discriminate).
    apply (rows_spec arch n ts ThumbOpcodes [] v eq_refl). intros o' ps' r' [].
  Qed.
  Lemma opcode_reads arch v ts :
    match parseThumbOpcode isfun file section signed arch v ts with
    | Some (o, _, r) => exists ps, tfirst arch ts o ps r
    | None => forall o ps r, In o ThumbOpcodes -> ~ treads arch ts o ps r
    end.
  Proof.
    pose proof (opcode_spec arch v ts) as P. destruct (parseThumbOpcode _ _ _ _ _ _ _) as [((o & v') & r)|]; [|exact P].
    destruct P as (ps & v0 & F & _). exists ps. exact F.
  Qed.
End Steps.
