(** ARM lines: from the operands that are written to the variables of the instruction. *)

Require Import ZArith Lia Bool List String Ascii.
Require Import ZifyBool.
Require Import Verif.Ints Verif.Res Verif.ExprModel Verif.ParseModel Verif.FloatModel Verif.ArmModel Verif.ArmLineModel
  Verif.ArmSpec Verif.ArmIface Verif.ArmWordSpec Verif.ArmWordIface Verif.ArmLineSpec Verif.ArmRowProofs
  Verif.ArmNameProofs Verif.ArmOperandProofs Verif.ArmLayoutProofs Verif.ArmUsesProofs.
Import ListNotations.
Local Open Scope Z_scope.

(** * Ranges of the variables *)

Definition bound (k : var) (x : Z) : Prop :=
  match k with
  | VShiftType => 0 <= x <= 4
  | VRlist => 0 <= x < 65536
  | VUseShift | VByReg | VSpsr | VPsr | VWriteback | VSignPlus | VBitLen => True
  | _ => 0 <= x < 16
  end.
Definition v_ok (v : vars) : Prop := forall k x, v_num v k = Some x -> bound k x.
Lemma beq_var a b : var_beq a b = true <-> a = b.
Proof. split; [apply internal_var_dec_bl|apply internal_var_dec_lb]. Qed.
Lemma beq_xvar a b : xvar_beq a b = true <-> a = b.
Proof. split; [apply internal_xvar_dec_bl|apply internal_xvar_dec_lb]. Qed.
Lemma set_ok k x v : v_ok v -> bound k x -> v_ok (set k x v).
Proof.
  intros V B j y. cbn [set v_num]. destruct (var_beq k j) eqn:E; [|apply V].
  apply beq_var in E. subst j. intros H. injection H as <-. exact B.
Qed.
Lemma setx_ok k e v : v_ok v -> v_ok (setx k e v).
Proof. intros V j y. apply V. Qed.
Lemma no_vars_ok : v_ok no_vars.
Proof. intros k x H. discriminate. Qed.
Definition fine (r : pres) : Prop := match r with Got v _ | Miss v => v_ok v | Crash => True end.
Definition good_item (it : mitem) : Prop :=
  reg_item it /\ match it with MPseudoShift ty => 0 <= ty <= 4 | _ => True end.

Lemma shift_type_range n ty : In (n, ty) shift_names -> 0 <= ty <= 4.
Proof. intros M. cbn in M. in_cases M; lia. Qed.

Section Ranges.
  Variable isfun : string -> bool.
  Variables file section : Z.
  Lemma table_range ts t n r : (forall m x, lookup m t = Some x -> 0 <= x <= 15) -> parseRegisterTable ts t = Some (n, r) -> 0 <= n < 16.
  Proof.
    intros T H. destruct ts as [|[] ts]; try discriminate. cbn [parseRegisterTable] in H.
    destruct (lookup n0 t) as [x|] eqn:E; [|discriminate]. injection H as <- _. apply T in E. lia.
  Qed.
  Lemma regs_range m x : lookup m armRegisters = Some x -> 0 <= x <= 15.
  Proof. intros H. apply reg_lookup, reg_range in H. exact H. Qed.
  Lemma cops_range m x : lookup m armCopRegisters = Some x -> 0 <= x <= 15.
  Proof. intros H. apply cop_lookup, cop_range in H. exact H. Qed.
  Lemma cps_range m x : lookup m armCopNumbers = Some x -> 0 <= x <= 15.
  Proof. intros H. apply cp_lookup, cp_range in H. exact H. Qed.
  Lemma amount_ok imm v ts : v_ok v -> fine (shift_amount isfun file section imm v ts).
  Proof.
    intros V. unfold shift_amount, immediate. destruct (parseRegisterTable ts armRegisters) as [(n & r)|] eqn:E.
    - apply (table_range _ _ _ _ regs_range) in E. destruct imm; cbn [fine]; repeat apply set_ok; auto; exact Logic.I.
    - destruct (parseImmediate _ _ _ _) as [(e & r)|]; cbn [fine]; [|exact V].
      apply set_ok; [apply set_ok; [apply setx_ok, V|exact Logic.I]|exact Logic.I].
  Qed.
  Lemma item_ok it v ts : good_item it -> v_ok v -> fine (run_item isfun file section it v ts).
  Proof.
    intros (G & P) V. destruct it; cbn [reg_item] in G; cbn [run_item].
    - unfold parseRegister. destruct (parseRegisterTable ts armRegisters) as [(n & r)|] eqn:E; [|exact V].
      apply (table_range _ _ _ _ regs_range) in E. destruct G as (s & ->).
      destruct (n <=? max); cbn [fine]; apply set_ok; auto; destruct s; exact E.
    - unfold parseCop. destruct (parseRegisterTable ts _) as [(n & r)|] eqn:E; [|exact V].
      apply (table_range _ _ _ _ cops_range) in E. destruct G as (s & -> & _). cbn [fine]. apply set_ok; auto. destruct s; exact E.
    - destruct ts as [|[] ts]; cbn [fine]; apply set_ok; auto; exact Logic.I.
    - destruct ts as [|[] ts]; cbn [fine]; apply set_ok; auto; exact Logic.I.
    - destruct ts as [|[] ts]; try exact V. cbn [parsePsrTransfer]. destruct (psr_text short n) as [(s & f)|] eqn:E; [|exact V].
      cbn [fine]. destruct short; [apply set_ok; [exact V|exact Logic.I]|]. apply set_ok; [apply set_ok; [exact V|exact Logic.I]|].
      destruct (psr_sound _ _ _ E) as (j & W). apply psr_range in W. exact W.
    - unfold parseRegisterList. destruct (parse_list 0 ts) as [(m & r)|]; [|exact V].
      destruct (Z.eqb_spec (Z.land 65535 m) m) as [E|]; [|exact V]. cbn [fine]. apply set_ok; [exact V|]. cbn [bound].
      rewrite <- E. change 65535 with (Z.ones 16). rewrite Z.land_comm, Z.land_ones by lia. apply Z.mod_pos_bound. lia.
    - unfold parseShift. assert (V0 : v_ok (set VUseShift 0 v)) by (apply set_ok; [exact V|exact Logic.I]).
      destruct ts as [|[] ts]; try exact V0. destruct ts as [|[] ts]; try exact V0.
      destruct (split_digits _) as (ds & t). destruct (19 <=? _); [exact Logic.I|].
      destruct (shift_mode _) as [ty|] eqn:M; [|exact V0]. apply shift_mode_in in M.
      assert (V1 : v_ok (set VShiftType ty (set VUseShift 0 v))).
      { apply set_ok; [exact V0|]. exact (shift_type_range _ _ M). }
      destruct ds; [apply amount_ok; exact V1|]. cbn [fine]. apply set_ok; [apply set_ok; [apply setx_ok, V1|exact Logic.I]|exact Logic.I].
    - unfold immediate. destruct (parseImmediate _ _ _ ts) as [(e & r)|]; [|exact V]. cbn [fine].
      apply set_ok; [apply setx_ok, V|exact Logic.I].
    - unfold parseCop. destruct (parseRegisterTable ts _) as [(n & r)|] eqn:E; [|exact V].
      apply (table_range _ _ _ _ cps_range) in E. cbn [fine]. apply set_ok; auto.
    - unfold immediate. destruct (parseImmediate _ _ _ ts) as [(e & r)|]; [|exact V]. cbn [fine].
      apply set_ok; [apply setx_ok, V|exact Logic.I].
    - unfold immediate. destruct (parseImmediate _ _ _ ts) as [(e & r)|]; [|exact V]. cbn [fine].
      apply set_ok; [apply setx_ok, V|exact Logic.I].
    - unfold parsePseudoShift. apply amount_ok, set_ok; [exact V|exact P].
    - destruct ts as [|[] ts]; cbn [fine]; apply set_ok; auto; exact Logic.I.
    - unfold matchSymbol. destruct (symbol_token c); [|exact V]. destruct (same_type _ _); [exact V|]. destruct optional; exact V.
  Qed.
  Lemma items_fine its : Forall good_item its -> forall v ts, v_ok v -> fine (run_items isfun file section its v ts).
  Proof.
    induction 1 as [|it its G F IH]; intros v ts V; cbn [run_items].
    - destruct ts as [|[] ts]; exact V.
    - pose proof (item_ok it v ts G V) as O. destruct (run_item _ _ _ it v ts); cbn [fine] in O; [apply IH; exact O|exact O|exact Logic.I].
  Qed.
End Ranges.

(** * Operands and variables *)

Definition ok_piece (it : mitem) (p : piece) : Prop :=
  match it, p with
  | MReg k _, PReg s _ => k = var_of s
  | MCopReg k, PCop s _ => k = cvar_of s
  | MCopNumber, PCop s _ => s = CP
  | MWriteback, PWriteback _ | MPsr, PUser _ | MSign, PMinus _ | MList, PList _ => True
  | MPsrTransfer short, PStatus _ f => short = match f with None => true | Some _ => false end
  | MShift imm, PShift (Some (_, ByReg _)) => imm = false
  | MShift _, PShift _ => True
  | MPseudoShift _, PShift (Some _) => True
  | MImm _, PNum k _ => k = NImm
  | MCopOp, PNum k _ => k = NOpc1
  | MCopInf, PNum k _ => k = NOpc2
  | _, _ => False
  end.
Fixpoint pairs (its : list mitem) (ps : list piece) : list (mitem * piece) :=
  match its with
  | [] => []
  | it :: r => if is_symbol it then pairs r ps
               else match ps with p :: ps' => (it, p) :: pairs r ps' | [] => [] end
  end.
Definition putall (l : list (mitem * piece)) (v : vars) : vars := fold_left (fun v ip => put (fst ip) (snd ip) v) l v.
Definition operands (its : list mitem) : list mitem := filter (fun it => negb (is_symbol it)) its.
Definition ok_pair (ip : mitem * piece) : Prop := ok_piece (fst ip) (snd ip).

Section Chains.
  Variable isfun : string -> bool.
  Variables file section : Z.
  Lemma takes_ok it ts p r : takes isfun file section it ts (Some p) r -> ok_piece it p.
  Proof.
    destruct it; cbn [takes]; intros H.
    - destruct H as (s & n & x & E & _ & _ & _ & P). injection P as ->. exact E.
    - destruct H as (s & n & x & E & _ & _ & _ & P). injection P as ->. exact E.
    - destruct H as [(_ & P)|(_ & _ & P)]; injection P as ->; exact Logic.I.
    - destruct H as [(_ & P)|(_ & _ & P)]; injection P as ->; exact Logic.I.
    - destruct H as (s & n & f & j & _ & _ & _ & P). injection P as ->. destruct short; reflexivity.
    - destruct H as (l & m & _ & _ & P). injection P as ->. exact Logic.I.
    - destruct H as (s & S & P). injection P as ->. destruct S as [|n ty ts a r I S|]; try exact Logic.I.
      destruct S; [assumption|exact Logic.I|exact Logic.I].
    - destruct H as (e & _ & P). injection P as ->. reflexivity.
    - destruct H as (n & x & _ & _ & P). injection P as ->. reflexivity.
    - destruct H as (e & _ & P). injection P as ->. reflexivity.
    - destruct H as (e & _ & P). injection P as ->. reflexivity.
    - destruct H as (a & _ & P). injection P as ->. exact Logic.I.
    - destruct H as [(_ & P)|[(_ & P)|(_ & _ & _ & P)]]; injection P as ->; exact Logic.I.
    - destruct H as (t & _ & P & _). discriminate.
  Qed.
  Lemma chain_pairs its ts ps r : chain isfun file section its ts ps r ->
    (forall v, fill its ps v = putall (pairs its ps) v) /\ Forall ok_pair (pairs its ps) /\
    map snd (pairs its ps) = ps /\ map fst (pairs its ps) = operands its.
  Proof.
    induction 1 as [r|it its ts p ts' ps r T H (A & B & C & D)|it its ts ts' ps r T H (A & B & C & D)]; cbn [fill pairs operands filter].
    - repeat split. constructor.
    - rewrite (takes_symbol _ _ _ _ _ _ _ T). cbn [negb map fst snd]. split; [intros v; apply A|].
      split; [constructor; [exact (takes_ok _ _ _ _ T)|exact B]|]. unfold operands in D. rewrite C, D. auto.
    - rewrite (takes_symbol _ _ _ _ _ _ _ T). cbn [negb]. auto.
  Qed.
End Chains.

(** The main variable of an operand, and what else it writes. *)
Definition kind (it : mitem) : var + xvar :=
  match it with
  | MReg k _ | MCopReg k => inl k
  | MWriteback => inl VWriteback
  | MPsr => inl VPsr
  | MPsrTransfer _ => inl VSpsr
  | MList => inl VRlist
  | MShift _ | MPseudoShift _ => inl VUseShift
  | MImm _ => inr XImm
  | MCopNumber => inl VPn
  | MCopOp => inr XCpop
  | MCopInf => inr XCpinf
  | MSign => inl VSignPlus
  | MSymbol _ _ => inl VBitLen
  end.
Definition owner (k : var) : var :=
  match k with
  | VByReg | VShiftType | VShiftReg => VUseShift
  | VField => VSpsr
  | _ => k
  end.
Definition xowner (k : xvar) : var + xvar := match k with XShift => inl VUseShift | _ => inr k end.
Ltac open_piece it p O :=
  destruct it, p; cbn [ok_piece] in O; try contradiction;
  repeat match goal with
  | s : option (Z * amount) |- _ => destruct s as [[? []]|]; cbn [ok_piece] in O; try contradiction
  | f : option Z |- _ => destruct f
  end; subst.
Ltac beqs := repeat match goal with |- context [var_beq ?a ?b] => let E := fresh "E" in destruct (var_beq a b) eqn:E;
                                    [apply beq_var in E; subst|] end.
Lemma put_other it p v k : ok_piece it p -> kind it <> inl (owner k) -> k <> VBitLen -> v_num (put it p v) k = v_num v k.
Proof.
  intros O N B. open_piece it p O; cbn [kind put put_amount set setx v_num] in *; beqs; try reflexivity;
    try (exfalso; apply N; reflexivity); try (exfalso; apply B; reflexivity).
  all: exfalso; apply N; match goal with s : rslot |- _ => destruct s; reflexivity | s : cslot |- _ => destruct s; reflexivity end.
Qed.
Lemma put_other_x it p v k : ok_piece it p -> kind it <> xowner k -> v_exp (put it p v) k = v_exp v k.
Proof.
  intros O N. open_piece it p O; cbn [kind put put_amount set setx v_exp] in *; try reflexivity;
  destruct k; cbn [xvar_beq xowner] in *; try reflexivity; exfalso; apply N; reflexivity.
Qed.
Lemma put_len it p v : ok_piece it p -> v_num (put it p v) VBitLen =
  match it with MImm n => Some n | MCopOp => Some 4 | MCopInf => Some 3 | _ => v_num v VBitLen end.
Proof.
  intros O. open_piece it p O; try reflexivity;
    match goal with s : rslot |- _ => destruct s; reflexivity | s : cslot |- _ => destruct s; reflexivity end.
Qed.

(** What is known of the variables after an operand was read. *)
Definition effect (it : mitem) (p : piece) (v : vars) : Prop :=
  match it, p with
  | MReg k _, PReg _ x | MCopReg k, PCop _ x => v_num v k = Some x
  | MCopNumber, PCop _ x => v_num v VPn = Some x
  | MWriteback, PWriteback b => v_num v VWriteback = Some (if b then 1 else 0)
  | MPsr, PUser b => v_num v VPsr = Some (if b then 1 else 0)
  | MSign, PMinus b => v_num v VSignPlus = Some (if b then 0 else 1)
  | MPsrTransfer _, PStatus s f =>
      v_num v VSpsr = Some (if s then 1 else 0) /\ match f with Some x => v_num v VField = Some x | None => True end
  | MList, PList m => v_num v VRlist = Some m
  | (MShift _ | MPseudoShift _), PShift None => v_num v VUseShift = Some 0
  | (MShift _ | MPseudoShift _), PShift (Some (ty, a)) =>
      v_num v VUseShift = Some 1 /\ v_num v VShiftType = Some ty /\
      match a with
      | ByReg r => v_num v VByReg = Some 1 /\ v_num v VShiftReg = Some r
      | ByNum e => v_num v VByReg = Some 0 /\ v_exp v XShift = Some e
      end
  | MImm _, PNum _ e => v_exp v XImm = Some e
  | MCopOp, PNum _ e => v_exp v XCpop = Some e
  | MCopInf, PNum _ e => v_exp v XCpinf = Some e
  | _, _ => True
  end.
Lemma var_beq_refl k : var_beq k k = true.
Proof. apply beq_var. reflexivity. Qed.
Lemma put_effect it p v : ok_piece it p -> effect it p (put it p v).
Proof.
  intros O. open_piece it p O; cbn [effect put put_amount set setx v_num v_exp]; rewrite ?var_beq_refl; cbn [var_beq xvar_beq]; auto.
Qed.
Lemma owner_own (s : rslot) (c : cslot) : owner (var_of s) = var_of s /\ owner (cvar_of c) = cvar_of c.
Proof. destruct s, c; auto. Qed.
Lemma not_len (s : rslot) (c : cslot) : var_of s <> VBitLen /\ cvar_of c <> VBitLen.
Proof. destruct s, c; split; discriminate. Qed.
Lemma effect_stays it p it' p' v : ok_piece it p -> ok_piece it' p' -> kind it <> kind it' -> effect it p v ->
  effect it p (put it' p' v).
Proof.
  intros O O' N.
  assert (V : forall k, kind it = inl (owner k) -> k <> VBitLen -> v_num (put it' p' v) k = v_num v k).
  { intros k E B. apply put_other; [exact O'|congruence|exact B]. }
  assert (X : forall k, kind it = xowner k -> v_exp (put it' p' v) k = v_exp v k).
  { intros k E. apply put_other_x; [exact O'|congruence]. }
  clear O' N. generalize dependent (put it' p' v). intros w V X. clear it' p'.
  open_piece it p O; cbn [effect]; intros H; cbn [kind] in V, X;
    repeat match goal with
    | |- context [v_num w ?k] => rewrite (V k) by (reflexivity || discriminate)
    | |- context [v_exp w ?k] => rewrite (X k) by reflexivity
    end; try exact H.
  - match goal with s : rslot |- _ => rewrite (V _); [exact H|rewrite (proj1 (owner_own s CD)); reflexivity|apply (not_len s CD)] end.
  - match goal with s : cslot |- _ => rewrite (V _); [exact H|rewrite (proj2 (owner_own RD s)); reflexivity|apply (not_len RD s)] end.
Qed.

Lemma putall_effect l : Forall ok_pair l -> NoDup (map (fun ip => kind (fst ip)) l) -> forall v it p, In (it, p) l -> effect it p (putall l v).
Proof.
  assert (K : forall l it p, Forall ok_pair l -> ok_piece it p -> ~ In (kind it) (map (fun ip => kind (fst ip)) l) ->
             forall v, effect it p v -> effect it p (putall l v)).
  { clear l. induction l as [|(it' & p') l IH]; intros it p F O N v E; [exact E|]. inversion F as [|? ? O' F']; subst.
    cbn [map fst In] in N. cbn [putall fold_left fst snd]. apply IH; auto. apply effect_stays; auto. }
  induction l as [|(it' & p') l IH]; intros F N v it p I; [destruct I|]. inversion F as [|? ? O' F']; subst.
  cbn [map fst] in N. inversion N as [|? ? N1 N2]; subst. cbn [putall fold_left fst snd].
  destruct I as [E|I].
  - injection E as <- <-. apply K; auto. apply put_effect. exact O'.
  - apply IH; auto.
Qed.
Lemma putall_other l k : Forall ok_pair l -> ~ In (inl (owner k)) (map (fun ip => kind (fst ip)) l) -> k <> VBitLen ->
  forall v, v_num (putall l v) k = v_num v k.
Proof.
  induction l as [|(it' & p') l IH]; intros F N B v; [reflexivity|]. inversion F as [|? ? O' F']; subst.
  cbn [map fst In] in N. cbn [putall fold_left fst snd]. etransitivity; [apply IH; auto|]. apply put_other; auto.
Qed.
Fixpoint bitlen (its : list mitem) : option Z :=
  match its with
  | [] => None
  | it :: r => match bitlen r with
               | Some n => Some n
               | None => match it with MImm n => Some n | MCopOp => Some 4 | MCopInf => Some 3 | _ => None end
               end
  end.
Lemma putall_len l : Forall ok_pair l -> forall v, v_num (putall l v) VBitLen =
  match bitlen (map fst l) with Some n => Some n | None => v_num v VBitLen end.
Proof.
  induction 1 as [|(it & p) l O F IH]; intros v; [reflexivity|]. cbn [putall fold_left map fst snd bitlen].
  etransitivity; [apply IH|]. destruct (bitlen (map fst l)); [reflexivity|]. rewrite put_len by exact O. destruct it; reflexivity.
Qed.
(** Which variables an operand sets in any case. *)
Definition writes (k : var) (it : mitem) : bool :=
  match it with
  | MReg j _ | MCopReg j => var_beq j k
  | MCopNumber => var_beq VPn k
  | MPsrTransfer short => var_beq VSpsr k || (var_beq VField k && negb short)
  | MList => var_beq VRlist k
  | MImm _ | MCopOp | MCopInf => var_beq VBitLen k
  | _ => false
  end.
Lemma put_sets it p v k : ok_piece it p -> v_num v k <> None \/ writes k it = true -> v_num (put it p v) k <> None.
Proof.
  intros O H. open_piece it p O; cbn [put put_amount set setx v_num writes] in *;
  repeat match goal with |- context [var_beq ?a ?b] => let E := fresh "E" in destruct (var_beq a b) eqn:E; rewrite ?E in H end;
    try discriminate; cbn [orb andb negb] in H; destruct H as [H|H]; try discriminate; try exact H.
  rewrite andb_false_r in H. discriminate.
Qed.
Lemma putall_sets l : Forall ok_pair l -> forall v k, v_num v k <> None \/ existsb (writes k) (map fst l) = true -> v_num (putall l v) k <> None.
Proof.
  induction 1 as [|(it & p) l O F IH]; intros v k H; cbn [map fst existsb] in H; cbn [putall fold_left fst snd].
  - destruct H as [H|H]; [exact H|discriminate].
  - apply IH. rewrite orb_true_iff in H. destruct H as [H|[H|H]].
    + left. apply put_sets; auto.
    + left. apply put_sets; auto.
    + right. exact H.
Qed.

(** * Rows *)

Definition is_shift_item (it : mitem) : bool := match it with MShift _ | MPseudoShift _ => true | _ => false end.
Definition is_wb_item (it : mitem) : bool := match it with MWriteback => true | _ => false end.
Definition is_psr_item (it : mitem) : bool := match it with MPsr => true | _ => false end.
Definition is_sign_item (it : mitem) : bool := match it with MSign => true | _ => false end.
Definition is_imm_item (it : mitem) : bool := match it with MImm _ => true | _ => false end.
Definition is_op_item (it : mitem) : bool := match it with MCopOp => true | _ => false end.
Definition is_inf_item (it : mitem) : bool := match it with MCopInf => true | _ => false end.
Definition kind_eqb (a b : var + xvar) : bool :=
  match a, b with inl x, inl y => var_beq x y | inr x, inr y => xvar_beq x y | _, _ => false end.
Fixpoint distinct (l : list (var + xvar)) : bool :=
  match l with [] => true | a :: r => negb (existsb (kind_eqb a) r) && distinct r end.
Lemma distinct_ok l : distinct l = true -> NoDup l.
Proof.
  induction l as [|a l IH]; cbn [distinct]; intros H; [constructor|]. apply andb_true_iff in H. destruct H as (A & B).
  constructor; [|auto]. intros I. apply negb_true_iff in A. apply not_true_iff_false in A. apply A.
  apply existsb_exists. exists a. split; [exact I|]. destruct a; cbn [kind_eqb]; [apply beq_var|apply beq_xvar]; reflexivity.
Qed.
Definition provides (o : arm_opcode) (its : list mitem) (n : need) : bool :=
  match n with
  | NdCond => has_char "C" (op_name o)
  | NdRd => existsb (fun it => match it with MReg VRd _ => true | _ => false end) its
  | NdRn => existsb (fun it => match it with MReg VRn _ => true | _ => false end) its
  | NdRm => existsb (fun it => match it with MReg VRm _ => true | _ => false end) its
  | NdRs => existsb (fun it => match it with MReg VRs _ => true | _ => false end) its
  | NdSpsr => existsb (fun it => match it with MPsrTransfer _ => true | _ => false end) its
  | NdField => existsb (fun it => match it with MPsrTransfer false => true | _ => false end) its
  | NdList => existsb (fun it => match it with MList => true | _ => false end) its
  | NdCp => existsb (fun it => match it with MCopNumber => true | _ => false end) its
  | NdCrd => existsb (fun it => match it with MCopReg VCd => true | _ => false end) its
  | NdCrn => existsb (fun it => match it with MCopReg VCn => true | _ => false end) its
  | NdCrm => existsb (fun it => match it with MCopReg VCm => true | _ => false end) its
  end.
(** The reads that do not depend on the shift. *)
Definition reads_rest (o : arm_opcode) : list var :=
  let ty := op_type o in
    when (has o ARM_DN) [VRd] ++ when (has o ARM_DM) [VRd] ++
    when (has o ARM_IMMEDIATE) [VBitLen] ++
    when (ty =? ARM_TYPE3) [VRn] ++
    when (ty =? ARM_TYPE5)
      (when (has o ARM_N && negb (has o ARM_DN)) [VRn] ++ when (has o ARM_D) [VRd] ++
       when (negb (has o ARM_IMMEDIATE) && has o ARM_REGISTER && negb (has o ARM_DM)) [VRm]) ++
    when (ty =? ARM_TYPE6)
      (VSpsr :: (if has o ARM_MRS then [VRd] else VField :: when (has o ARM_REGISTER) [VRm])) ++
    when (ty =? ARM_TYPE7) (VRd :: VRs :: when (negb (has o ARM_DM)) [VRm] ++ when (has o ARM_N) [VRn]) ++
    when (ty =? ARM_TYPE9)
      (VWriteback :: when (has o ARM_N) [VRn] ++ when (has o ARM_D) [VRd] ++ when (has o ARM_SIGN) [VSignPlus] ++
       when (negb (has o ARM_IMMEDIATE) && has o ARM_REGISTER) [VRm]) ++
    when (ty =? ARM_TYPE10)
      (VWriteback :: VRn :: VRd :: when (has o ARM_SIGN) [VSignPlus] ++
       when (negb (has o ARM_IMMEDIATE) && has o ARM_REGISTER) [VRm]) ++
    when (ty =? ARM_TYPE11) (VPsr :: VWriteback :: VRlist :: when (has o ARM_N) [VRn]) ++
    when ((ty =? ARM_TYPE12) || (ty =? ARM_MISC)) (VRd :: when (negb (has o ARM_DM)) [VRm] ++ when (has o ARM_N) [VRn]) ++
    when (ty =? ARM_TYPE14) [VCn; VCd; VPn; VCm] ++
    when (ty =? ARM_TYPE16) [VCn; VRd; VPn; VCm] ++
    when (ty =? ARM_TYPE17) [VRn; VRd; VPn; VCm].
Definition cleared (k : var) : bool := match k with VUseShift | VPsr | VWriteback | VSignPlus => true | _ => false end.
Definition line_ok (o : arm_opcode) : bool :=
  let its := operands (items false (op_mask o)) in
  match arm_form (op_name o) (op_mask o) with
  | None => false
  | Some f =>
      distinct (map kind its) &&
      Bool.eqb (existsb is_shift_item its) (takes_shift f) &&
      Bool.eqb (existsb is_wb_item its) (takes_wb f) &&
      Bool.eqb (existsb is_psr_item its) (match f with FBlock _ => true | _ => false end) &&
      Bool.eqb (existsb is_sign_item its) (takes_sign f) &&
      Bool.eqb (existsb is_imm_item its) (takes_imm f) &&
      (if takes_imm f then match bitlen its with Some n => n =? imm_len f | None => false end else true) &&
      forallb (fun it => match it with
                         | MShift imm => match f with FMem _ _ _ _ | FPld _ => imm | _ => true end
                         | MPseudoShift ty => (0 <=? ty) && (ty <=? 4) && match f with FMem _ _ _ _ | FPld _ => false | _ => true end
                         | _ => true
                         end) its &&
      Bool.eqb (existsb is_op_item its) (match f with FCop _ _ _ => true | _ => false end) &&
      Bool.eqb (existsb is_inf_item its) (match f with FCop _ _ inf => inf | _ => false end) &&
      Bool.eqb (existsb is_imm_item its) (has o ARM_IMMEDIATE) && Bool.eqb (existsb is_op_item its) (has o ARM_COPOP) &&
      Bool.eqb (existsb is_inf_item its) (has o ARM_COPINF) &&
      forallb (provides o its) (needs f) &&
      (match f with FHalfAbs => true | _ => forallb (fun k => existsb (writes k) its || cleared k) (reads_rest o) end)
  end.
Lemma lines_ok : forallb line_ok ArmOpcodes = true.
Proof. vm_compute. reflexivity. Qed.
Definition pseudo_ok (it : mitem) : bool := match it with MPseudoShift ty => (0 <=? ty) && (ty <=? 4) | _ => true end.
Lemma pseudos_ok : forallb (fun o => forallb pseudo_ok (items false (op_mask o))) ArmOpcodes = true.
Proof. vm_compute. reflexivity. Qed.
Lemma row_good o : In o ArmOpcodes -> Forall good_item (items false (op_mask o)).
Proof.
  intros H. pose proof (items_reg _ false (op_mask o) (Nat.lt_succ_diag_r _)) as R. pose proof pseudos_ok as P.
  rewrite forallb_forall in P. specialize (P _ H). rewrite forallb_forall in P. rewrite Forall_forall in *.
  intros it I. split; [apply R, I|]. specialize (P _ I). destruct it; try exact Logic.I. cbn [pseudo_ok] in P. lia.
Qed.
