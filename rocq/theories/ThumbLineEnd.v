(** Thumb lines: from the operands that are written to the halfwords. *)

Require Import ZArith Lia Bool List String Ascii.
Require Import ZifyBool.
Require Import Verif.Ints Verif.Res Verif.ExprModel Verif.ParseModel Verif.ArmModel Verif.ThumbModel Verif.ThumbSpec Verif.ThumbProofs
  Verif.ThumbBranchProofs Verif.ArmLineModel Verif.ArmLineSpec Verif.ArmOperandProofs Verif.ThumbLineModel Verif.ThumbLineSpec Verif.ThumbLineProofs.
Import ListNotations.
Local Open Scope Z_scope.

(** * The kinds of operands are those of the mask *)

Inductive pkind := KReg (k : tplace) | KList | KNum (len : Z).
Definition kind (p : tpiece) : pkind := match p with QReg k _ => KReg k | QList _ => KList | QNum n _ => KNum n end.
Fixpoint scan (m : string) : list pkind :=
  match m with
  | EmptyString => []
  | String c r =>
      if Ascii.eqb c "d" || Ascii.eqb c "D" then KReg PD :: scan r
      else if Ascii.eqb c "s" || Ascii.eqb c "S" then KReg PS :: scan r
      else if Ascii.eqb c "n" then KReg PN :: scan r
      else if Ascii.eqb c "o" then KReg PO :: scan r
      else if Ascii.eqb c "r" then match r with String _ r' => scan r' | EmptyString => [] end
      else if Ascii.eqb c "R" then match r with String _ (String _ r') => KList :: scan r' | _ => [] end
      else if Ascii.eqb c "I" || Ascii.eqb c "i" then match r with String a r' => KNum (number_of_char a) :: scan r' | EmptyString => [] end
      else scan r
  end%char.
Fixpoint any_reg (m : string) : bool :=
  match m with EmptyString => false | String c r => Ascii.eqb c "D" || Ascii.eqb c "S" || any_reg r end%char.
Definition piece_in (n : Z) (p : tpiece) : Prop :=
  match p with QReg _ x => 0 <= x < n | QList x => 0 <= x < 65536 | QNum _ _ => True end.

Section Kinds.
  Variable isfun : string -> bool.
  Variables file section : Z.
  Variable signed : bool.
  Notation tlays := (tlays isfun file section signed).

  Lemma lays_kinds m ts ps r : tlays m ts ps r -> map kind ps = scan m.
  Proof.
    induction 1 as [r|c k m n x ts ps r C R L H IH|c k m n x ts ps r C R H IH|a m n ts ps r R H IH
                   |a b m ts l x ts' ps r LI LM A H IH|c a m ts e ts' ps r C N H IH
                   |c t m ts ps r S H IH|c t m ts ps r S H IH|c t m ts ps r S N H IH]; cbn [map kind]; try rewrite IH.
    - reflexivity.
    - unfold low_letter in C. cbn in C. in_cases C; reflexivity.
    - unfold any_letter in C. cbn in C. in_cases C; reflexivity.
    - reflexivity.
    - reflexivity.
    - destruct C as [<-|[<-|[]]]; reflexivity.
    - cbn in S. in_cases S; reflexivity.
    - cbn in S. in_cases S; reflexivity.
    - cbn in S. in_cases S; reflexivity.
  Qed.
  Lemma lays_range m ts ps r : tlays m ts ps r -> Forall (piece_in (if any_reg m then 16 else 8)) ps.
  Proof.
    assert (W : forall (b : bool) l, Forall (piece_in (if b then 16 else 8)) l -> Forall (piece_in 16) l).
    { intros b l H. eapply Forall_impl; [|exact H]. intros p. destruct p; cbn [piece_in]; destruct b; lia. }
    induction 1 as [r|c k m n x ts ps r C R L H IH|c k m n x ts ps r C R H IH|a m n ts ps r R H IH
                   |a b m ts l x ts' ps r LI LM A H IH|c a m ts e ts' ps r C N H IH
                   |c t m ts ps r S H IH|c t m ts ps r S H IH|c t m ts ps r S N H IH]; cbn [any_reg].
    - constructor.
    - pose proof (reg_range _ _ R). unfold low_letter in C. cbn in C.
      in_cases C; cbn [Ascii.eqb Bool.eqb orb]; constructor; try exact IH; cbn [piece_in]; destruct (any_reg m); lia.
    - pose proof (reg_range _ _ R). apply W in IH. unfold any_letter in C. cbn in C.
      in_cases C; cbn [Ascii.eqb Bool.eqb orb]; constructor; try exact IH; cbn [piece_in]; lia.
    - cbn [Ascii.eqb Bool.eqb orb]. destruct (_ || _ || any_reg m) eqn:E; [eapply W; exact IH|].
      apply orb_false_iff in E. destruct E as (_ & E). rewrite E in IH. exact IH.
    - cbn [Ascii.eqb Bool.eqb orb]. constructor; [cbn [piece_in]; apply LM|].
      match goal with |- Forall (piece_in (if ?c then _ else _)) _ => destruct c eqn:E; [eapply W; exact IH|] end.
      apply orb_false_iff in E. destruct E as (_ & E). apply orb_false_iff in E. destruct E as (_ & E). rewrite E in IH. exact IH.
    - assert (any_reg (String c (String a m)) = any_reg (String a m)) as E by (destruct C as [<-|[<-|[]]]; reflexivity).
      change (Forall (piece_in (if any_reg (String c (String a m)) then 16 else 8)) (QNum (number_of_char a) e :: ps)). rewrite E.
      constructor; [exact I|]. cbn [any_reg]. destruct (_ || _ || any_reg m) eqn:F; [eapply W; exact IH|].
      apply orb_false_iff in F. destruct F as (_ & F). rewrite F in IH. exact IH.
    - cbn in S. in_cases S; exact IH.
    - cbn in S. in_cases S; exact IH.
    - cbn in S. in_cases S; exact IH.
  Qed.
End Kinds.

Lemma written_range n k ps : 0 < n -> Forall (piece_in n) ps -> 0 <= or0 (written k ps) < n.
Proof.
  intros Hn. induction 1 as [|p ps P H IH]; cbn [written or0]; [lia|].
  destruct (written k ps); [exact IH|]. destruct p as [j x| |]; [|cbn [or0]; lia|cbn [or0]; lia].
  destruct (place_eqb k j); [exact P|cbn [or0]; lia].
Qed.
Lemma list_range n ps : Forall (piece_in n) ps -> 0 <= or0 (written_list ps) < 65536.
Proof.
  induction 1 as [|p ps P H IH]; cbn [written_list or0]; [lia|].
  destruct (written_list ps); [exact IH|]. destruct p as [j x| |]; [cbn [or0]; lia|exact P|cbn [or0]; lia].
Qed.

(** * Rows read no variable that they did not write *)

Definition clean (o : thumb_opcode) (ps : list tpiece) : thumb_in :=
  let q := toperands_of ps in mkThumbIn o (td q) (ThumbSpec.ts q) (tn q) (to q) (mask_bitlen (t_mask o)) (ThumbSpec.tlist q).
Definition row_clean (o : thumb_opcode) : Prop :=
  forall ps v, map kind ps = scan (t_mask o) ->
    (forall s, thumb_encode (thumb_input o (tfill ps v)) s = thumb_encode (clean o ps) s) /\
    (thas o THUMB_IMMEDIATE = true -> g_len (tfill ps v) = mask_bitlen (t_mask o) /\
       exists n e, written_num ps = Some (n, e) /\ g_imm (tfill ps v) = Some e).
Ltac by_kinds :=
  repeat match goal with
  | H : map kind ?ps = _ :: _ |- _ => destruct ps as [|[] ps]; try discriminate H; cbn [map kind] in H; injection H; clear H; intros
  | H : map kind ?ps = [] |- _ => destruct ps; [clear H|discriminate H]
  end; subst.
Ltac clean_row :=
  let ps := fresh "ps" in let v := fresh "v" in let H := fresh "H" in
  intros ps v H;
  match type of H with _ = ?s => let s' := eval vm_compute in s in change (map kind ps = s') in H end;
  by_kinds; split;
  [intros [[] []]; reflexivity|
   first [intros _; split; [reflexivity|do 2 eexists; split; reflexivity] | intros E; vm_compute in E; discriminate E]].
Lemma rows_clean : Forall row_clean ThumbOpcodes.
Proof. unfold ThumbOpcodes. repeat (apply Forall_cons; [clean_row|]). apply Forall_nil. Qed.

Lemma assemble_clean o ps v a x pool : In o ThumbOpcodes -> map kind ps = scan (t_mask o) ->
  thumb_assemble (thumb_input o (tfill ps v)) a x pool = thumb_assemble (clean o ps) a x pool.
Proof.
  intros I K. pose proof rows_clean as A. rewrite Forall_forall in A. destruct (A o I ps v K) as (E & L).
  assert (V : thumb_validate (thumb_input o (tfill ps v)) a x pool = thumb_validate (clean o ps) a x pool).
  { unfold thumb_validate, clean, thumb_input. cbn [h_op h_bitlen]. destruct (thas o THUMB_IMMEDIATE); [|reflexivity].
    destruct (L eq_refl) as (-> & _). reflexivity. }
  unfold thumb_assemble. rewrite V. destruct (thumb_validate (clean o ps) a x pool); cbn [rbind]; [apply E|reflexivity|reflexivity].
Qed.
(** Forms and flags of the rows. *)
Definition row_facts (o : thumb_opcode) : bool :=
  match thumb_form (t_name o) (t_mask o) with
  | Some f =>
      Bool.eqb (has_number f) (thas o THUMB_IMMEDIATE) &&
      Bool.eqb (match f with FLoadPool => true | _ => false end) (thas o THUMB_POOL) &&
      (match f with FHi _ | FBx _ => true | _ => negb (any_reg (t_mask o)) end) &&
      (match thumb_row (t_name o) (t_mask o) with Some o' => Bool.eqb (thas o' THUMB_ARM9) (thas o THUMB_ARM9) | None => false end)
  | None => false
  end.
Lemma rows_facts : forallb row_facts ThumbOpcodes = true.
Proof. vm_compute. reflexivity. Qed.

(** Only [ldr rd,\[pc\]] uses a number that was not given. *)
Definition row_total (o : thumb_opcode) : Prop :=
  forall rd rs rn ro n l s, (thas o THUMB_IMMEDIATE = true -> y_imm s <> None) ->
    thumb_encode (mkThumbIn o rd rs rn ro n l) s = RUb -> thumb_form (t_name o) (t_mask o) = Some FLoadPc0.
Ltac total_row :=
  intros ? ? ? ? ? ? [[z|] y] V E;
  first [discriminate E | exfalso; apply V; reflexivity | reflexivity].
Lemma rows_total : Forall row_total ThumbOpcodes.
Proof. unfold ThumbOpcodes. repeat (apply Forall_cons; [total_row|]). apply Forall_nil. Qed.
Lemma validate_total i a x pool :
  match thumb_validate i a x pool with
  | ROk s => thas (h_op i) THUMB_IMMEDIATE = true -> y_imm s <> None
  | RErr => True
  | RUb => False
  end.
Proof.
  unfold thumb_validate. destruct (thas (h_op i) THUMB_IMMEDIATE) eqn:E; [|intros X; discriminate X].
  assert (A : forall imm, thumb_scaled (h_op i) (h_bitlen i) a imm pool <> RUb).
  { intros imm. unfold thumb_scaled, thumb_pool_offset. repeat match goal with |- context [if ?c then _ else _] => destruct c end; discriminate. }
  assert (B : forall imm, thumb_range (h_op i) (h_bitlen i) imm <> RUb).
  { intros imm. unfold thumb_range. repeat match goal with |- context [if ?c then _ else _] => destruct c end; discriminate. }
  assert (C : forall imm,
    match (do imm <- thumb_scaled (h_op i) (h_bitlen i) a imm pool;
           let '(imm, enc) := thumb_addsub (h_op i) (h_bitlen i) imm in
           do imm <- thumb_range (h_op i) (h_bitlen i) imm; ROk (mkThumbSt (Some imm) enc)) with
    | ROk s => true = true -> y_imm s <> None
    | RErr => True
    | RUb => False
    end).
  { intros imm. specialize (A imm). destruct (thumb_scaled _ _ _ _ _) as [k| |]; cbn [rbind]; [|exact I|apply A; reflexivity].
    destruct (thumb_addsub _ _ k) as (k' & enc). specialize (B k'). destruct (thumb_range _ _ k'); cbn [rbind]; [discriminate|exact I|apply B; reflexivity]. }
  destruct x; cbn [rbind]; [apply C|destruct (thas (h_op i) THUMB_POOL); cbn [rbind]; [apply C|exact I]|exact I].
Qed.
Lemma assemble_total i a x pool : In (h_op i) ThumbOpcodes -> thumb_assemble i a x pool = RUb ->
  thumb_form (t_name (h_op i)) (t_mask (h_op i)) = Some FLoadPc0.
Proof.
  intros I E. pose proof (validate_total i a x pool) as V. unfold thumb_assemble in E.
  destruct (thumb_validate i a x pool) as [s| |]; cbn [rbind] in E; [|discriminate|destruct V].
  pose proof rows_total as T. rewrite Forall_forall in T. specialize (T _ I). destruct i as [o rd rs rn ro n l]. eapply T; [exact V|exact E].
Qed.

Lemma find_split {A} (p : A -> bool) l l' : find p (l ++ l') = match find p l with Some x => Some x | None => find p l' end.
Proof. induction l as [|x l IH]; [reflexivity|]. cbn [app find]. destruct (p x); [reflexivity|exact IH]. Qed.

Section Claim.
  Variable isfun : string -> bool.
  Variables file section : Z.
  Variable signed : bool.
  Variable nan : Z.
  Variable ev : expr -> value.
  Notation treads := (treads isfun file section signed).
  Notation tfirst := (tfirst isfun file section signed).

  Lemma first_row arch tks o ps r : tfirst arch tks o ps r -> thumb_row (t_name o) (t_mask o) = Some o.
  Proof.
    intros F. pose proof (first_in _ _ _ _ _ _ _ _ _ F) as Hin. pose proof rows_facts as A. rewrite forallb_forall in A.
    specialize (A o Hin). unfold row_facts in A. destruct (thumb_form _ _) as [f|]; [|discriminate].
    apply andb_true_iff in A. destruct A as (_ & A).
    destruct F as (pre & post & E & (Av & ts' & Ets & L) & P). unfold thumb_row in *. rewrite E in *. rewrite find_split in *.
    destruct (find _ pre) as [o'|] eqn:X.
    - exfalso. apply find_some in X. destruct X as (X & Y). apply andb_true_iff in Y. destruct Y as (Y1 & Y2).
      apply String.eqb_eq in Y1, Y2. apply Bool.eqb_prop in A. apply (P o' ps r X). split.
      + unfold tavailable in *. rewrite A. exact Av.
      + exists ts'. rewrite Y1, Y2. split; [exact Ets|exact L].
    - cbn [find]. rewrite !String.eqb_refl. reflexivity.
  Qed.
  Lemma first_parsed arch tks o ps r : tfirst arch tks o ps r -> exists f, thumb_form (t_name o) (t_mask o) = Some f /\
    parsed (t_name o) (t_mask o) f (clean o ps) /\ has_number f = thas o THUMB_IMMEDIATE /\
    thas o THUMB_POOL = match f with FLoadPool => true | _ => false end.
  Proof.
    intros F. pose proof (first_row _ _ _ _ _ F) as R. pose proof (first_in _ _ _ _ _ _ _ _ _ F) as Hin.
    pose proof rows_facts as A. rewrite forallb_forall in A. specialize (A o Hin). unfold row_facts in A.
    destruct (thumb_form _ _) as [f|] eqn:Ef; [|discriminate].
    apply andb_true_iff in A. destruct A as (A & _). apply andb_true_iff in A. destruct A as (A & A3).
    apply andb_true_iff in A. destruct A as (A1 & A2). apply Bool.eqb_prop in A1, A2.
    exists f. split; [reflexivity|]. split; [|split; [exact A1|symmetry; exact A2]].
    destruct F as (_ & _ & _ & (_ & ts' & _ & L) & _). apply lays_range in L.
    split; [exact R|exact Ef|reflexivity|].
    unfold regs_ok, clean, toperands_of. cbn [h_rd h_rs h_rn h_ro h_rlist td ThumbSpec.ts tn to ThumbSpec.tlist].
    pose proof (list_range _ _ L) as LR.
    assert (W : forall k, 0 <= or0 (written k ps) < match f with FHi _ | FBx _ => 16 | _ => 8 end).
    { intros k. pose proof (written_range (if any_reg (t_mask o) then 16 else 8) k ps ltac:(destruct (any_reg (t_mask o)); lia) L) as B.
      destruct f; try (apply negb_true_iff in A3; rewrite A3 in B; exact B); destruct (any_reg (t_mask o)); lia. }
    repeat split; try apply W; apply LR.
  Qed.

  (** The value of the expression decides: without a number it does not matter, and what is not an
      integer is refused, but for floating point literals. *)
  Lemma assemble_value i a x y pool : thas (h_op i) THUMB_IMMEDIATE = false -> thumb_assemble i a x pool = thumb_assemble i a y pool.
  Proof. intros E. unfold thumb_assemble, thumb_validate. rewrite E. reflexivity. Qed.
  Lemma assemble_bad i a x pool : thas (h_op i) THUMB_IMMEDIATE = true ->
    match x with IInt _ => False | IFloat _ => thas (h_op i) THUMB_POOL = false | IBad => True end -> thumb_assemble i a x pool = RErr.
  Proof.
    intros E X. unfold thumb_assemble, thumb_validate. rewrite E. destruct x; [destruct X|rewrite X; reflexivity|reflexivity].
  Qed.
  Lemma encode_halfword i s w : thumb_encode i s = ROk [w] -> 0 <= w < 65536.
  Proof.
    assert (U : forall z, 0 <= u16 z < 65536) by (intros z; unfold u16; apply Z.mod_pos_bound; lia).
    unfold thumb_encode. cbv zeta.
    repeat match goal with
    | |- context [if ?c then _ else _] => destruct c
    end; try destruct (y_imm s); cbn [need rbind]; intros H; try discriminate H;
    try (injection H as <-; apply U).
  Qed.

  Lemma assemble_halfword i a x pool w : thumb_assemble i a x pool = ROk [w] -> 0 <= w < 65536.
  Proof.
    unfold thumb_assemble. destruct (thumb_validate i a x pool) as [s| |]; cbn [rbind]; [apply encode_halfword|discriminate|discriminate].
  Qed.

  Definition line_claim (arch : arm_arch) (tks : list token) (a pool : Z) (x : res (list Z)) : Prop :=
    match x with
    | ROk ws => exists o ps r f, tfirst arch tks o ps r /\ thumb_form (t_name o) (t_mask o) = Some f /\
        (tsane ev f ps a -> tmeans ev f ps a pool ws)
    | RErr => (forall o ps r, In o ThumbOpcodes -> ~ treads arch tks o ps r) \/
        exists o ps r f, tfirst arch tks o ps r /\ thumb_form (t_name o) (t_mask o) = Some f /\
          (tsane ev f ps a -> ~ tfits ev f ps a pool)
    | RUb => exists o ps r, tfirst arch tks o ps r /\ thumb_form (t_name o) (t_mask o) = Some FLoadPc0
    end.

  (** One row with its operands. *)
  Definition row_claim (f : tform) (ps : list tpiece) (a pool : Z) (x : res (list Z)) : Prop :=
    match x with
    | ROk ws => tmeans ev f ps a pool ws
    | RErr => ~ tfits ev f ps a pool
    | RUb => True
    end.
  Lemma operands_clean o ps : operands_of (clean o ps) = toperands_of ps.
  Proof. reflexivity. Qed.
  (** The number of the line as [Validate] sees it. *)
  Lemma value_cases o ps f v : has_number f = thas o THUMB_IMMEDIATE ->
    (thas o THUMB_IMMEDIATE = true -> exists n e, written_num ps = Some (n, e) /\ g_imm v = Some e) ->
    forall a pool, let x := as_imm nan (option_map ev (g_imm v)) in
    match line_value ev f ps with
    | Some z => thumb_assemble (clean o ps) a x pool = thumb_assemble (clean o ps) a (IInt z) pool
    | None => has_number f = true /\ (exists n e, written_num ps = Some (n, e) /\ x = as_imm nan (Some (ev e)) /\ forall z, ev e <> VInt z)
    end.
  Proof.
    intros N W a pool x. unfold line_value. rewrite N. destruct (thas o THUMB_IMMEDIATE) eqn:E.
    - destruct (W eq_refl) as (n & e & W1 & W2). rewrite W1. subst x. rewrite W2. cbn [option_map].
      destruct (ev e) eqn:V; try (split; [reflexivity|]; exists n, e; rewrite V; split; [reflexivity|]; split; [reflexivity|]; intros z Q; discriminate Q).
      reflexivity.
    - apply assemble_value. exact E.
  Qed.
  Lemma row_line o ps f v a pool : parsed (t_name o) (t_mask o) f (clean o ps) -> has_number f = thas o THUMB_IMMEDIATE ->
    thas o THUMB_POOL = match f with FLoadPool => true | _ => false end ->
    (thas o THUMB_IMMEDIATE = true -> exists n e, written_num ps = Some (n, e) /\ g_imm v = Some e) ->
    0 <= a < 2 ^ 32 -> a mod 2 = 0 -> pool mod 4 = 0 -> tsane ev f ps a ->
    row_claim f ps a pool (thumb_assemble (clean o ps) a (as_imm nan (option_map ev (g_imm v))) pool).
  Proof.
    intros P N Pl W Ha Ea Ep (S1 & S2 & S3 & S4). pose proof (value_cases o ps f v N W a pool) as VC. cbv zeta in VC.
    set (x := as_imm nan (option_map ev (g_imm v))) in *.
    destruct (is_branch f) eqn:B.
    { unfold row_claim, tmeans, tfits. rewrite B. destruct (line_value ev f ps) as [z|] eqn:L.
      - rewrite VC. pose proof (branches f _ _ _ a z pool P B Ha Ea (fun E => S2 E z eq_refl)) as R.
        destruct (thumb_assemble (clean o ps) a (IInt z) pool) as [ws| |].
        + exists z. split; [reflexivity|exact R].
        + intros (z' & Q & T). injection Q as <-. congruence.
        + exact Logic.I.
      - destruct VC as (Hn & n & e & _ & X & Z). rewrite assemble_bad.
        + intros (z & Q & _). discriminate Q.
        + cbn [clean h_op]. congruence.
        + cbn [clean h_op]. rewrite X. unfold as_imm. destruct (ev e) eqn:V; try exact Logic.I; [exact (Z _ eq_refl)|].
          rewrite Pl. destruct f; try reflexivity; discriminate B. }
    destruct (is_list f) eqn:Li.
    { destruct (S3 eq_refl) as (m & M). destruct (form_list f _ _ (clean o ps) a x pool m P Li M) as (w & A & D).
      rewrite A. unfold row_claim, tmeans. rewrite B. exists w, m. split; [reflexivity|]. split; [eapply assemble_halfword; exact A|].
      split; [exact D|]. destruct f; try discriminate Li; exists 0; (split; [reflexivity|exact M]). }
    assert (Dp : f = FLoadPool \/ f <> FLoadPool) by (destruct f; first [left; reflexivity|right; discriminate]).
    destruct Dp as [->|Np].
    { unfold row_claim, tmeans, tfits. cbn [is_branch].
      assert (Hn : thas o THUMB_IMMEDIATE = true) by (rewrite <- N; reflexivity).
      destruct (W Hn) as (n & e & W1 & W2).
      assert (X : x = as_imm nan (Some (ev e))) by (subst x; rewrite W2; reflexivity).
      assert (D : x = IBad /\ ~ is_literal ev ps \/ x <> IBad /\ is_literal ev ps).
      { unfold is_literal. rewrite X. unfold as_imm. destruct (ev e) eqn:V;
          first [right; split; [discriminate|]; exists n, e; split; [exact W1|]; rewrite V; exact Logic.I
                |left; split; [reflexivity|]; intros (n' & e' & Q & T); rewrite W1 in Q; injection Q as <- <-; rewrite V in T; exact T]. }
      destruct D as [(D & F)|(D & F)].
      - rewrite assemble_bad; [|exact Hn|rewrite D; exact Logic.I]. intros (y & Q & _). exact (F Q).
      - pose proof (form_pool _ _ _ a x pool P D Ha Ea Ep) as R.
        destruct (thumb_assemble (clean o ps) a x pool) as [[|w [|]]| |]; try contradiction R.
        + destruct R as (y & R1 & R2 & R3). exists w, y. split; [reflexivity|]. split; [exact R3|]. split; [exact R2|]. split; [exact F|exact R1].
        + intros (y & _ & Q). rewrite operands_clean in R. congruence. }
    assert (T : forall w z, (exists y, thumb_meaning f (toperands_of ps) z a = Some y /\ thumb_decode w = Some y /\ 0 <= w < 65536) ->
      line_value ev f ps = Some z -> tmeans ev f ps a pool [w]).
    { intros w z (y & Y1 & Y2 & Y3) L. unfold tmeans. rewrite B. exists w, y. split; [reflexivity|]. split; [exact Y3|]. split; [exact Y2|].
      destruct f; try (exists z; split; [exact L|exact Y1]). contradiction Np; reflexivity. }
    assert (Fl : (forall z y, line_value ev f ps = Some z -> thumb_meaning f (toperands_of ps) z a <> Some y) -> ~ tfits ev f ps a pool).
    { intros H Q. unfold tfits in Q. rewrite B in Q. destruct Q as (y & Q).
      destruct f; try (destruct Q as (z & Q1 & Q2); exact (H z y Q1 Q2)). contradiction Np; reflexivity. }
    destruct (line_value ev f ps) as [z|] eqn:L.
    - rewrite VC. pose proof (others f _ _ _ a z pool P B Li S4 Np (S1 eq_refl Np z eq_refl) Ha Ea) as R.
      destruct (thumb_assemble (clean o ps) a (IInt z) pool) as [[|w [|]]| |]; try contradiction R; unfold row_claim.
      + apply (T w z R eq_refl).
      + apply Fl. intros z' y Q. injection Q as <-. rewrite operands_clean in R. congruence.
    - destruct VC as (Hn & n & e & _ & X & Z). rewrite assemble_bad.
      + apply Fl. intros z y Q. discriminate Q.
      + cbn [clean h_op]. congruence.
      + cbn [clean h_op]. rewrite X. unfold as_imm. destruct (ev e) eqn:V; try exact Logic.I; [exact (Z _ eq_refl)|].
        rewrite Pl. destruct f; try reflexivity. contradiction Np; reflexivity.
  Qed.

  Theorem thumb_line_claim arch v tks a pool : 0 <= a < 2 ^ 32 -> a mod 2 = 0 -> pool mod 4 = 0 ->
    line_claim arch tks a pool (thumb_line isfun file section signed arch nan ev v tks a pool).
  Proof.
    intros Ha Ea Ep. unfold thumb_line. pose proof (opcode_spec isfun file section signed arch v tks) as P.
    destruct (parseThumbOpcode _ _ _ _ _ _ _) as [((o & v') & r)|]; [|left; exact P].
    destruct P as (ps & v0 & F & ->). pose proof (first_in _ _ _ _ _ _ _ _ _ F) as Hin.
    destruct (first_parsed _ _ _ _ _ F) as (f & Ef & Pa & N & Pl).
    assert (K : map kind ps = scan (t_mask o)).
    { destruct F as (_ & _ & _ & (_ & ts' & _ & L) & _). eapply lays_kinds; exact L. }
    pose proof rows_clean as A. rewrite Forall_forall in A. destruct (A o Hin ps v0 K) as (_ & W).
    rewrite (assemble_clean _ _ _ _ _ _ Hin K).
    assert (R := fun S => row_line o ps f (tfill ps v0) a pool Pa N Pl (fun E => proj2 (W E)) Ha Ea Ep S).
    destruct (thumb_assemble (clean o ps) a _ pool) as [ws| |] eqn:X; unfold line_claim.
    - exists o, ps, r, f. split; [exact F|]. split; [exact Ef|exact R].
    - right. exists o, ps, r, f. split; [exact F|]. split; [exact Ef|exact R].
    - exists o, ps, r. split; [exact F|]. apply assemble_total in X; [exact X|exact Hin].
  Qed.
End Claim.

(** The first values of the variables do not matter. *)
Lemma line_vars isfun file section signed nan ev arch v v' tks a pool :
  thumb_line isfun file section signed arch nan ev v tks a pool = thumb_line isfun file section signed arch nan ev v' tks a pool.
Proof.
  unfold thumb_line. pose proof (opcode_spec isfun file section signed arch v tks) as P.
  pose proof (opcode_spec isfun file section signed arch v' tks) as P'.
  destruct (parseThumbOpcode _ _ _ _ _ v _) as [((o & w) & r)|]; destruct (parseThumbOpcode _ _ _ _ _ v' _) as [((o' & w') & r')|].
  - destruct P as (ps & v0 & F & ->). destruct P' as (ps' & v0' & F' & ->).
    destruct (tfirst_once _ _ _ _ _ _ _ _ _ _ _ _ F F') as (<- & <- & <-).
    pose proof (first_in _ _ _ _ _ _ _ _ _ F) as Hin.
    assert (K : map kind ps = scan (t_mask o)).
    { destruct F as (_ & _ & _ & (_ & ts' & _ & L) & _). eapply lays_kinds; exact L. }
    rewrite !(assemble_clean _ _ _ _ _ _ Hin K).
    pose proof rows_clean as A. rewrite Forall_forall in A. destruct (A o Hin ps v0 K) as (_ & W). destruct (A o Hin ps v0' K) as (_ & W').
    destruct (thas o THUMB_IMMEDIATE) eqn:E; [|apply assemble_value; exact E].
    destruct (W eq_refl) as (_ & n & e & W1 & ->). destruct (W' eq_refl) as (_ & n' & e' & W1' & ->).
    rewrite W1 in W1'. injection W1' as <- <-. reflexivity.
  - exfalso. destruct P as (ps & v0 & F & _). pose proof (first_in _ _ _ _ _ _ _ _ _ F) as Hin.
    destruct F as (_ & _ & _ & R & _). exact (P' _ _ _ Hin R).
  - exfalso. destruct P' as (ps & v0 & F & _). pose proof (first_in _ _ _ _ _ _ _ _ _ F) as Hin.
    destruct F as (_ & _ & _ & R & _). exact (P _ _ _ Hin R).
  - reflexivity.
Qed.
