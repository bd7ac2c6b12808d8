(** Which operands each form of ARM line uses. *)

Require Import ZArith Lia Bool List String Ascii.
Require Import ZifyBool.
Require Import Verif.Ints Verif.ArmModel Verif.ArmSpec Verif.ArmIface Verif.ArmWordSpec Verif.ArmWordIface.
Import ListNotations.
Local Open Scope Z_scope.

(** Operands that only some lines write. *)
Inductive need := NdCond | NdRd | NdRn | NdRm | NdRs | NdSpsr | NdField | NdList | NdCp | NdCrd | NdCrn | NdCrm.
Definition field (n : need) (q : aops) : Z + bool :=
  match n with
  | NdCond => inl (q_cond q) | NdRd => inl (q_rd q) | NdRn => inl (q_rn q) | NdRm => inl (q_rm q) | NdRs => inl (q_rs q)
  | NdSpsr => inr (q_spsr q) | NdField => inl (q_field q) | NdList => inl (q_list q)
  | NdCp => inl (q_cp q) | NdCrd => inl (q_crd q) | NdCrn => inl (q_crn q) | NdCrm => inl (q_crm q)
  end.
Definition need_sel (s : rsel) : list need := match s with SelNone => [] | SelRd => [NdRd] | SelRn => [NdRn] end.
Definition need_msel (s : msel) : list need := match s with SelRm => [NdRm] | SelRdM => [NdRd] end.
Definition need_place (p : place_form) : list need := match p with PlReg _ => [NdRm] | _ => [] end.
Definition need_cop (k : cop_kind) : list need :=
  match k with
  | KCdp => [NdCp; NdCrd; NdCrn; NdCrm]
  | KMcr | KMrc => [NdCp; NdCrn; NdCrm; NdRd]
  | KMcrr | KMrrc => [NdCp; NdCrm; NdRd; NdRn]
  end.
Definition needs (f : aform) : list need :=
  match f with
  | FBx _ => [NdCond; NdRn]
  | FBranch k => match k with BrBLX => [] | _ => [NdCond] end
  | FDpImm _ sn sd => NdCond :: need_sel sn ++ need_sel sd
  | FDpReg _ sn sd sm => NdCond :: need_sel sn ++ need_sel sd ++ need_msel sm
  | FNop => []
  | FAdr => [NdCond; NdRd]
  | FMsr imm => NdCond :: NdSpsr :: NdField :: (if imm then [] else [NdRm])
  | FMrs => [NdCond; NdSpsr; NdRd]
  | FMul acc two => [NdCond; NdRd; NdRs] ++ (if two then [] else [NdRm]) ++ (if acc then [NdRn] else [])
  | FMull _ _ => [NdCond; NdRd; NdRn; NdRm; NdRs]
  | FSmla | FSmlaw => [NdCond; NdRd; NdRm; NdRs; NdRn]
  | FSmulw | FSmul => [NdCond; NdRd; NdRm; NdRs]
  | FSmlal => [NdCond; NdRd; NdRn; NdRm; NdRs]
  | FMem _ _ _ p | FHalf _ p => NdCond :: NdRn :: NdRd :: need_place p
  | FMemAbs _ | FHalfAbs | FLiteral => [NdCond; NdRd]
  | FPld p => NdRn :: need_place p
  | FBlock _ => [NdCond; NdRn; NdList]
  | FPush | FPop => [NdCond; NdList]
  | FSwp _ two => [NdCond; NdRd; NdRn] ++ if two then [] else [NdRm]
  | FSwi => [NdCond]
  | FBkpt => []
  | FCop k u _ => need_cop k ++ if u then [] else [NdCond]
  | FClz => [NdCond; NdRd; NdRm]
  | FSat _ two => [NdCond; NdRd; NdRn] ++ if two then [] else [NdRm]
  end.
Definition same_on (f : aform) (q q' : aops) : Prop :=
  (forall n, In n (needs f) -> field n q = field n q') /\
  q_s q = q_s q' /\ q_mode q = q_mode q' /\ q_x q = q_x q' /\ q_y q = q_y q' /\ q_shift q = q_shift q' /\
  q_imm q = q_imm q' /\ q_minus q = q_minus q' /\ q_wb q = q_wb q' /\ q_user q = q_user q' /\
  q_opc1 q = q_opc1 q' /\ q_opc2 q = q_opc2 q' /\ q_short q = q_short q'.

Lemma same_sym f q q' : same_on f q q' -> same_on f q' q.
Proof. intros (N & H). split; [intros n Hn; symmetry; apply N, Hn|]. decompose [and] H. repeat split; congruence. Qed.
Definition need_eqb (a b : need) : bool :=
  match a, b with
  | NdCond, NdCond | NdRd, NdRd | NdRn, NdRn | NdRm, NdRm | NdRs, NdRs | NdSpsr, NdSpsr | NdField, NdField
  | NdList, NdList | NdCp, NdCp | NdCrd, NdCrd | NdCrn, NdCrn | NdCrm, NdCrm => true
  | _, _ => false
  end.
Lemma need_eqb_ok a b : need_eqb a b = true -> a = b.
Proof. destruct a, b; intros H; try reflexivity; discriminate. Qed.
(** The operands that are used; the others are replaced by zero. *)
Definition keep (f : aform) (n : need) (x : Z) : Z := if existsb (need_eqb n) (needs f) then x else 0.
Definition only (f : aform) (q : aops) : aops :=
  mkAops (keep f NdCond (q_cond q)) (q_s q) (q_mode q) (q_x q) (q_y q)
    (keep f NdRd (q_rd q)) (keep f NdRn (q_rn q)) (keep f NdRm (q_rm q)) (keep f NdRs (q_rs q)) (q_shift q) (q_imm q)
    (if existsb (need_eqb NdSpsr) (needs f) then q_spsr q else false) (keep f NdField (q_field q))
    (q_minus q) (q_wb q) (q_user q) (keep f NdList (q_list q)) (keep f NdCp (q_cp q)) (keep f NdCrd (q_crd q))
    (keep f NdCrn (q_crn q)) (keep f NdCrm (q_crm q)) (q_opc1 q) (q_opc2 q) (q_short q).
Lemma same_only f q q' : same_on f q q' -> only f q = only f q'.
Proof.
  intros (N & Es & Em & Ex & Ey & Esh & Ei & Emi & Ewb & Eu & E1 & E2 & Eo).
  assert (K : forall n, existsb (need_eqb n) (needs f) = true -> field n q = field n q').
  { intros n H. apply existsb_exists in H. destruct H as (m & I & E). apply need_eqb_ok in E. subst m. apply N, I. }
  assert (Z : forall n x x', field n q = inl x -> field n q' = inl x' -> keep f n x = keep f n x').
  { intros n x x' X X'. unfold keep. destruct (existsb _ _) eqn:E; [|reflexivity]. apply K in E. congruence. }
  assert (B : (if existsb (need_eqb NdSpsr) (needs f) then q_spsr q else false) =
              (if existsb (need_eqb NdSpsr) (needs f) then q_spsr q' else false)).
  { destruct (existsb _ _) eqn:E; [|reflexivity]. apply K in E. cbn [field] in E. congruence. }
  unfold only. rewrite B, Es, Em, Ex, Ey, Esh, Ei, Emi, Ewb, Eu, E1, E2, Eo.
  rewrite (Z NdCond _ _ eq_refl eq_refl), (Z NdRd _ _ eq_refl eq_refl), (Z NdRn _ _ eq_refl eq_refl), (Z NdRm _ _ eq_refl eq_refl),
    (Z NdRs _ _ eq_refl eq_refl), (Z NdField _ _ eq_refl eq_refl), (Z NdList _ _ eq_refl eq_refl), (Z NdCp _ _ eq_refl eq_refl),
    (Z NdCrd _ _ eq_refl eq_refl), (Z NdCrn _ _ eq_refl eq_refl), (Z NdCrm _ _ eq_refl eq_refl).
  reflexivity.
Qed.
Ltac forms f :=
  destruct f as [l|k|opc sn sd|opc sn sd sm| | |imm| |acc two|sg acc| | | | | |l b u p|l| |p|k p| |l| | |b two| | |k u inf| |op two];
  try (destruct p as [[]|[]|[]]); try destruct sn; try destruct sd; try destruct sm; try destruct k; try destruct two;
  try destruct acc; try destruct imm; try destruct u.
Lemma means_only f q addr lit pool a : arm_means f q addr lit pool a <-> arm_means f (only f q) addr lit pool a.
Proof. forms f; reflexivity. Qed.
Lemma fits_only f q addr pool int : arm_fits f q addr pool int <-> arm_fits f (only f q) addr pool int.
Proof. forms f; reflexivity. Qed.
Lemma sane_only f q : arm_sane f q <-> arm_sane f (only f q).
Proof. forms f; reflexivity. Qed.
Lemma undefined_only f q addr pool : arm_undefined f q addr pool <-> arm_undefined f (only f q) addr pool.
Proof. forms f; reflexivity. Qed.

Lemma means_same f q q' addr lit pool a : same_on f q q' -> arm_means f q addr lit pool a -> arm_means f q' addr lit pool a.
Proof. intros S H. apply (proj2 (means_only _ _ _ _ _ _)). rewrite <- (same_only _ _ _ S). apply (proj1 (means_only _ _ _ _ _ _)). exact H. Qed.
Lemma fits_same f q q' addr pool int : same_on f q q' -> arm_fits f q addr pool int -> arm_fits f q' addr pool int.
Proof. intros S H. apply (proj2 (fits_only _ _ _ _ _)). rewrite <- (same_only _ _ _ S). apply (proj1 (fits_only _ _ _ _ _)). exact H. Qed.
Lemma sane_same f q q' : same_on f q q' -> arm_sane f q -> arm_sane f q'.
Proof. intros S H. apply (proj2 (sane_only _ _)). rewrite <- (same_only _ _ _ S). apply (proj1 (sane_only _ _)). exact H. Qed.
Lemma undefined_same f q q' addr pool : same_on f q q' -> arm_undefined f q addr pool -> arm_undefined f q' addr pool.
Proof. intros S H. apply (proj2 (undefined_only _ _ _ _)). rewrite <- (same_only _ _ _ S). apply (proj1 (undefined_only _ _ _ _)). exact H. Qed.
Lemma fits_int f q addr pool int int' : (takes_imm f = true -> int = int') -> arm_fits f q addr pool int -> arm_fits f q addr pool int'.
Proof.
  intros E. destruct (takes_imm f) eqn:T; [rewrite (E eq_refl); auto|]. clear E.
  forms f; try discriminate T; cbn [arm_fits place_fits]; auto.
Qed.
