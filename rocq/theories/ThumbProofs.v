(** The Thumb encoder produces the instructions that were written. *)

Require Import ZArith Bool List String Ascii Lia.
Require Import ZifyBool.
Require Import Verif.Ints Verif.IntsLemmas Verif.BitFields Verif.Res Verif.ArmModel Verif.ThumbModel Verif.ThumbSpec.
Import ListNotations.
Local Open Scope Z_scope.
Ltac Zify.zify_post_hook ::= Z.div_mod_to_equations.

(** ** Rows of the table and forms *)
Definition opt (b : bool) (f : Z) : Z := if b then f else 0.
(** Encoding, type, flags and bit length of the row of a form. *)
Definition row_data (f : tform) : Z * Z * Z * Z :=
  match f with
  | FShift op two => (op * 0x800, 0, flags [THUMB_IMMEDIATE; opt two THUMB_DS; opt (negb (op =? 0)) THUMB_RIGHTSHIFT_IMMEDIATE], 5)
  | FAddReg sub two => (0x1800 + opt sub 0x200, 1, flags [THUMB_REGISTER; opt two THUMB_DS], 0)
  | FAddImm sub => (0x1C00 + opt sub 0x200, 1, flags [THUMB_IMMEDIATE; THUMB_ADDSUB_IMMEDIATE], 3)
  | FMov => (0x1C00, 1, 0, 0)
  | FImm op => (0x2000 + op * 0x800, 2, flags [THUMB_IMMEDIATE; opt (2 <=? op) THUMB_ADDSUB_IMMEDIATE], 8)
  | FAlu op => (0x4000 + op * 0x40, 3, THUMB_REGISTER, 0)
  | FHi op => (0x4400 + op * 0x100, 4, flags [THUMB_D; THUMB_S], 0)
  | FNop => (0x46C0, 4, 0, 0)
  | FBx link => (0x4700 + opt link 0x80, 4, flags [THUMB_S; opt link THUMB_ARM9], 0)
  | FLoadPc0 => (0x4800, 5, 0, 0)
  | FLoadPc => (0x4800, 5, flags [THUMB_IMMEDIATE; THUMB_WORD], 8)
  | FLoadAddress => (0x4800, 5, flags [THUMB_IMMEDIATE; THUMB_PCR], 32)
  | FLoadPool => (0x4800, 5, flags [THUMB_IMMEDIATE; THUMB_POOL], 32)
  | FMemReg op => (0x5000 + op * 0x200, if (op =? 1) || (op =? 3) || (op =? 5) || (op =? 7) then 7 else 6, flags [THUMB_D; THUMB_S; THUMB_O], 0)
  | FMemImm load size =>
      ((if size =? 4 then 0x6000 else if size =? 1 then 0x7000 else 0x8000) + opt load 0x800, if size =? 2 then 9 else 8,
       flags [THUMB_D; THUMB_S; THUMB_IMMEDIATE; opt (size =? 4) THUMB_WORD; opt (size =? 2) THUMB_HALFWORD], 5)
  | FMemImm0 load size =>
      ((if size =? 4 then 0x6000 else if size =? 1 then 0x7000 else 0x8000) + opt load 0x800, if size =? 2 then 9 else 8,
       flags [THUMB_D; THUMB_S], 0)
  | FMemSp load => (0x9000 + opt load 0x800, 10, flags [THUMB_D; THUMB_IMMEDIATE; THUMB_WORD], 8)
  | FMemSp0 load => (0x9000 + opt load 0x800, 10, THUMB_D, 0)
  | FAddPc => (0xA000, 11, flags [THUMB_D; THUMB_IMMEDIATE; THUMB_WORD], 8)
  | FAddress => (0xA000, 11, flags [THUMB_D; THUMB_IMMEDIATE; THUMB_PCR], 32)
  | FAddSp => (0xA800, 11, flags [THUMB_D; THUMB_IMMEDIATE; THUMB_WORD], 8)
  | FAdjust sub => (0xB000 + opt sub 0x80, 12, flags [THUMB_IMMEDIATE; THUMB_WORD; THUMB_ADDSUB_IMMEDIATE], 7)
  | FPush => (0xB400, 13, THUMB_RLIST, 0)
  | FPop => (0xBC00, 13, THUMB_RLIST, 0)
  | FStore => (0xC000, 14, flags [THUMB_D; THUMB_RLIST], 0)
  | FLoad => (0xC800, 14, flags [THUMB_D; THUMB_RLIST], 0)
  | FBranchIf c => (0xD000 + c * 0x100, 15, flags [THUMB_IMMEDIATE; THUMB_BRANCH], 8)
  | FSwi => (0xDF00, 16, THUMB_IMMEDIATE, 8)
  | FBkpt => (0xBE00, 16, flags [THUMB_IMMEDIATE; THUMB_ARM9], 8)
  | FBranch => (0xE000, 17, flags [THUMB_IMMEDIATE; THUMB_BRANCH], 11)
  | FLow0 => (0xF800, 18, 0, 0)
  | FLow => (0xF800, 18, flags [THUMB_IMMEDIATE; THUMB_HALFWORD], 11)
  | FLong => (0xF000, 18, flags [THUMB_IMMEDIATE; THUMB_BRANCH; THUMB_LONG], 22)
  | FLongX => (0xF000, 18, flags [THUMB_IMMEDIATE; THUMB_ARM9; THUMB_EXCHANGE; THUMB_BRANCH; THUMB_LONG], 22)
  end.
(** The numbers inside forms. *)
Definition form_ok (f : tform) : bool :=
  match f with
  | FShift op _ => (0 <=? op) && (op <? 3)
  | FImm op => (0 <=? op) && (op <? 4)
  | FAlu op => (0 <=? op) && (op <? 16)
  | FHi op => (0 <=? op) && (op <? 3)
  | FMemReg op => (0 <=? op) && (op <? 8)
  | FMemImm _ s | FMemImm0 _ s => (s =? 1) || (s =? 2) || (s =? 4)
  | FBranchIf c => (0 <=? c) && (c <? 14)
  | _ => true
  end.
Definition row_ok (o : thumb_opcode) : bool :=
  match thumb_row (t_name o) (t_mask o), thumb_form (t_name o) (t_mask o) with
  | Some o', Some f =>
      let '(e, t, fl, b) := row_data f in
      (t_encoding o' =? e) && (t_type o' =? t) && (t_flags o' =? fl) && ((b =? 0) || (mask_bitlen (t_mask o') =? b)) && form_ok f
  | _, _ => false
  end.
Lemma rows_ok : forallb row_ok ThumbOpcodes = true.
Proof. vm_compute. reflexivity. Qed.

(** ** Reading back halfwords, by trying all operands *)
Definition all (n : nat) (P : Z -> bool) : bool := forallb (fun k => P (Z.of_nat k)) (seq 0 n).
Lemma all_spec n P : all n P = true -> forall x, 0 <= x < Z.of_nat n -> P x = true.
Proof.
  unfold all. rewrite forallb_forall. intros H x Hx. rewrite <- (Z2Nat.id x) by lia. apply H. apply in_seq. lia.
Qed.
Definition tinstr_dec : forall a b : option tinstr, {a = b} + {a <> b}.
Proof. intros a b. decide equality. decide equality; first [apply Z.eq_dec|apply Bool.bool_dec]. Defined.
Definition same (a b : option tinstr) : bool := if tinstr_dec a b then true else false.
Lemma same_eq a b : same a b = true -> a = b.
Proof. unfold same. destruct (tinstr_dec a b); [auto|discriminate]. Qed.

Lemma all3_eq n1 n2 n3 (f g : Z -> Z -> Z -> option tinstr) :
  all n1 (fun a => all n2 (fun b => all n3 (fun c => same (f a b c) (g a b c)))) = true ->
  forall a b c, 0 <= a < Z.of_nat n1 -> 0 <= b < Z.of_nat n2 -> 0 <= c < Z.of_nat n3 -> f a b c = g a b c.
Proof.
  intros E a b c Ha Hb Hc. apply same_eq.
  exact (all_spec _ _ (all_spec _ _ (all_spec _ _ E a Ha) b Hb) c Hc).
Qed.
Ltac enum3 a n1 b n2 c n3 :=
  match goal with |- ?L = ?R =>
    let l := eval pattern a, b, c in L in let r := eval pattern a, b, c in R in
    match l with ?f a b c => match r with ?g a b c =>
      apply (all3_eq n1 n2 n3 f g); [vm_compute; reflexivity|cbn;lia..] end end end.
Lemma all2_eq n1 n2 (f g : Z -> Z -> option tinstr) :
  all n1 (fun a => all n2 (fun b => same (f a b) (g a b))) = true ->
  forall a b, 0 <= a < Z.of_nat n1 -> 0 <= b < Z.of_nat n2 -> f a b = g a b.
Proof. intros E a b Ha Hb. apply same_eq. exact (all_spec _ _ (all_spec _ _ E a Ha) b Hb). Qed.
Ltac enum2 a n1 b n2 :=
  match goal with |- ?L = ?R =>
    let l := eval pattern a, b in L in let r := eval pattern a, b in R in
    match l with ?f a b => match r with ?g a b =>
      apply (all2_eq n1 n2 f g); [vm_compute; reflexivity|cbn;lia..] end end end.
Lemma all1_eq n1 (f g : Z -> option tinstr) : all n1 (fun a => same (f a) (g a)) = true -> forall a, 0 <= a < Z.of_nat n1 -> f a = g a.
Proof. intros E a Ha. apply same_eq. exact (all_spec _ _ E a Ha). Qed.
Ltac enum1 a n1 :=
  match goal with |- ?L = ?R =>
    let l := eval pattern a in L in let r := eval pattern a in R in
    match l with ?f a => match r with ?g a =>
      apply (all1_eq n1 f g); [vm_compute; reflexivity|cbn;lia..] end end end.

(** ** Forms *)
Definition operands_of (i : thumb_in) : toperands := mkTOp (h_rd i) (h_rs i) (h_rn i) (h_ro i) (h_rlist i).
(** Registers as the parser accepts them: letters in lower case stand for r0 to r7. *)
Definition regs_ok (f : tform) (i : thumb_in) : Prop :=
  let n := match f with FHi _ | FBx _ => 16 | _ => 8 end in
  0 <= h_rd i < n /\ 0 <= h_rs i < n /\ 0 <= h_rn i < n /\ 0 <= h_ro i < n /\ 0 <= h_rlist i < 65536.
Record parsed (name mask : string) (f : tform) (i : thumb_in) : Prop := mkParsed {
  pa_row : thumb_row name mask = Some (h_op i);
  pa_form : thumb_form name mask = Some f;
  pa_len : h_bitlen i = mask_bitlen (t_mask (h_op i));
  pa_regs : regs_ok f i }.

Lemma parsed_data name mask f i : parsed name mask f i ->
  let '(e, t, fl, b) := row_data f in
  t_encoding (h_op i) = e /\ t_type (h_op i) = t /\ t_flags (h_op i) = fl /\ (b = 0 \/ h_bitlen i = b) /\ form_ok f = true.
Proof.
  intros [R F L _]. pose proof rows_ok as A. rewrite forallb_forall in A.
  pose proof R as R'. unfold thumb_row in R'. apply find_some in R'. destruct R' as [Hin Hn].
  apply andb_true_iff in Hn. destruct Hn as [Hn Hm]. apply String.eqb_eq in Hn, Hm.
  specialize (A _ Hin). unfold row_ok in A. rewrite Hn, Hm, R, F in A. destruct (row_data f) as [[[e t] fl] b].
  rewrite !andb_true_iff in A. rewrite L. rewrite ?Hm in *. destruct A as ((((A1 & A2) & A3) & A4) & A5).
  apply Z.eqb_eq in A1, A2, A3. apply orb_true_iff in A4. rewrite !Z.eqb_eq in A4. auto.
Qed.

Definition result_ok (r : res (list Z)) (m : option tinstr) : Prop :=
  match r with
  | ROk [w] => exists x, m = Some x /\ thumb_decode w = Some x /\ 0 <= w < 65536
  | ROk _ => False
  | RErr => m = None
  | RUb => False
  end.

Lemma u16_range' x : 0 <= u16 x < 65536.
Proof. unfold u16. apply Z.mod_pos_bound. lia. Qed.
Lemma one_ok w x : thumb_decode (u16 w) = Some x -> result_ok (ROk [u16 w]) (Some x).
Proof. intros H. exists x. split; [reflexivity|]. split; [exact H|apply u16_range']. Qed.

Ltac consts :=
  repeat match goal with
  | |- context [hasf ?a ?b] => let v := eval vm_compute in (hasf a b) in match v with true => idtac | false => idtac end; change (hasf a b) with v
  | |- context [Z.shiftl 1 ?b] => is_cst b; let v := eval vm_compute in (Z.shiftl 1 b) in change (Z.shiftl 1 b) with v
  | |- context [Z.eqb ?a ?b] => is_cst a; is_cst b; let v := eval vm_compute in (Z.eqb a b) in change (Z.eqb a b) with v
  end; cbv beta iota zeta; cbn [andb orb negb rbind need y_imm y_newenc].
Ltac open_form P :=
  let e := fresh in let t := fresh in let fl := fresh in let b := fresh in
  destruct P as (e & t & fl & b & _); unfold thumb_assemble, thumb_validate, thumb_encode, thumb_scaled, thumb_addsub, thumb_range, thas;
  rewrite ?e, ?t, ?fl; try (destruct b as [b|b]; [discriminate b|rewrite b; clear b]); clear e t fl;
  cbn [opt flags fold_right];
  unfold THUMB_TYPE1, THUMB_TYPE2, THUMB_TYPE3, THUMB_TYPE4, THUMB_TYPE5, THUMB_TYPE6, THUMB_TYPE7, THUMB_TYPE8, THUMB_TYPE9,
    THUMB_TYPE10, THUMB_TYPE11, THUMB_TYPE12, THUMB_TYPE13, THUMB_TYPE14, THUMB_TYPE15, THUMB_TYPE16, THUMB_TYPE17, THUMB_TYPE18, THUMB_TYPE19;
  consts; consts.

Lemma land3 x : Z.land x 3 = x mod 4.
Proof. change 3 with (Z.ones 2). rewrite Z.land_ones by lia. reflexivity. Qed.
Lemma land1 x : Z.land x 1 = x mod 2.
Proof. change 1 with (Z.ones 1). rewrite Z.land_ones by lia. reflexivity. Qed.
Lemma shiftr1 x : Z.shiftr x 1 = x / 2.
Proof. rewrite Z.shiftr_div_pow2 by lia. reflexivity. Qed.
Lemma shiftr2 x : Z.shiftr x 2 = x / 4.
Proof. rewrite Z.shiftr_div_pow2 by lia. reflexivity. Qed.

Ltac start P R D :=
  pose proof (parsed_data _ _ _ _ P) as D; destruct P as [_ _ _ R]; unfold regs_ok in R;
  destruct R as (? & ? & ? & ? & ?); cbn [row_data] in D.
(** Cases of a boolean condition, with the arithmetic it stands for. *)
Ltac test := match goal with |- context [if ?b then _ else _] => let E := fresh "E" in destruct b eqn:E end.
Ltac refused := cbn [rbind result_ok thumb_meaning]; unfold when, between; consts;
  match goal with |- (if ?b then _ else _) = None => replace b with false by (symmetry; lia); reflexivity end.
Ltac accepted := cbn [rbind need y_imm y_newenc thumb_meaning]; unfold when, between; consts;
  match goal with |- result_ok _ (if ?b then _ else _) => replace b with true by (symmetry; lia) end;
  apply one_ok; unfold operands_of; cbn [td ts tn to tlist].

Lemma form_shift op two name mask i ramPos z pool : parsed name mask (FShift op two) i -> is_int32 z ->
  result_ok (thumb_assemble i ramPos (IInt z) pool) (thumb_meaning (FShift op two) (operands_of i) z ramPos).
Proof.
  intros P Hz. start P R D. assert (F : form_ok (FShift op two) = true) by tauto. cbn [form_ok] in F.
  assert (Hop : op = 0 \/ op = 1 \/ op = 2) by lia. clear F.
  destruct Hop as [-> | [-> | ->] ], two; open_form D; rewrite (s32_small z Hz); test; [refused|accepted|refused|accepted|refused|accepted|refused|accepted|refused|accepted|refused|accepted].
  - generalize dependent (h_rd i). intros rd H. enum2 z 32%nat rd 8%nat.
  - generalize dependent (h_rd i). generalize dependent (h_rs i). intros rs Hs rd H. enum3 z 32%nat rd 8%nat rs 8%nat.
  - generalize dependent (h_rd i). intros rd H. enum2 z 33%nat rd 8%nat.
  - generalize dependent (h_rd i). generalize dependent (h_rs i). intros rs Hs rd H. enum3 z 33%nat rd 8%nat rs 8%nat.
  - generalize dependent (h_rd i). intros rd H. enum2 z 33%nat rd 8%nat.
  - generalize dependent (h_rd i). generalize dependent (h_rs i). intros rs Hs rd H. enum3 z 33%nat rd 8%nat rs 8%nat.
Qed.
Ltac reg1 rd := generalize dependent (h_rd _); intros rd ?.
Ltac plain := cbn [rbind need y_imm y_newenc thumb_meaning]; consts; apply one_ok; unfold operands_of; cbn [td ts tn to tlist].
Ltac cases n x := match n with 1%nat => idtac | S ?m => destruct (Z.eq_dec x (Z.of_nat m)) as [->|]; [|cases m x] end.
Ltac values H x n := assert (H : form_ok _ = true) by tauto.

Lemma form_plain f name mask i ramPos v pool : parsed name mask f i ->
  has_number f = false -> is_list f = false -> f <> FLoadPc0 ->
  result_ok (thumb_assemble i ramPos v pool) (thumb_meaning f (operands_of i) 0 ramPos).
Proof.
  intros P N L N0. destruct f; try discriminate N; try discriminate L; try congruence; start P R D.
  - destruct sub, two; open_form D; plain; generalize dependent (h_rd i); generalize dependent (h_rs i); generalize dependent (h_rn i);
      intros rn Hn rs Hs rd Hd; first [enum3 rn 8%nat rs 8%nat rd 8%nat|enum2 rn 8%nat rd 8%nat].
  - open_form D; plain. generalize dependent (h_rd i); generalize dependent (h_rs i). intros rs Hs rd Hd. enum2 rs 8%nat rd 8%nat.
  - assert (F : form_ok (FAlu op) = true) by tauto. cbn [form_ok] in F. assert (Ho : 0 <= op < 16) by lia.
    open_form D; plain. generalize dependent (h_rd i); generalize dependent (h_rs i). intros rs Hs rd Hd. enum3 op 16%nat rs 8%nat rd 8%nat.
  - assert (F : form_ok (FHi op) = true) by tauto. cbn [form_ok] in F. assert (Ho : 0 <= op < 3) by lia.
    open_form D; plain. generalize dependent (h_rd i); generalize dependent (h_rs i). intros rs Hs rd Hd. enum3 op 3%nat rs 16%nat rd 16%nat.
  - open_form D; plain. reflexivity.
  - destruct link; open_form D; plain; generalize dependent (h_rs i); intros rs Hs; enum1 rs 16%nat.
  - assert (F : form_ok (FMemReg op) = true) by tauto. cbn [form_ok] in F. assert (Ho : 0 <= op < 8) by lia.
    assert (T : t_type (h_op i) = 6 \/ t_type (h_op i) = 7) by (destruct D as (_ & -> & _); destruct (_ || _); auto).
    destruct D as (De & _ & Df & _ & _). 
    destruct T as [T|T]; unfold thumb_assemble, thumb_validate, thumb_encode, thas; rewrite De, T, Df; cbn [flags fold_right]; unfold THUMB_TYPE1, THUMB_TYPE2, THUMB_TYPE3, THUMB_TYPE4, THUMB_TYPE5, THUMB_TYPE6, THUMB_TYPE7, THUMB_TYPE8, THUMB_TYPE12, THUMB_TYPE19; consts; plain;
      generalize dependent (h_rd i); generalize dependent (h_rs i); generalize dependent (h_ro i); intros ro Hr rs Hs rd Hd;
      (assert (Hop : op = 0 \/ op = 1 \/ op = 2 \/ op = 3 \/ op = 4 \/ op = 5 \/ op = 6 \/ op = 7) by lia); clear De F Ho;
      repeat (destruct Hop as [->|Hop]); subst; enum3 ro 8%nat rs 8%nat rd 8%nat.
  - assert (F : form_ok (FMemImm0 load size) = true) by tauto. cbn [form_ok] in F. assert (Ho : size = 1 \/ size = 2 \/ size = 4) by lia. clear F.
    destruct load; destruct Ho as [-> | [-> | ->] ]; open_form D; plain;
      generalize dependent (h_rd i); generalize dependent (h_rs i); intros rs Hs rd Hd; enum2 rs 8%nat rd 8%nat.
  - destruct load; open_form D; plain; generalize dependent (h_rd i); intros rd Hd; enum1 rd 8%nat.
  - open_form D; plain. reflexivity.
Qed.

(** Forms with a number. *)
Lemma form_addimm sub name mask i ramPos z pool : parsed name mask (FAddImm sub) i -> is_int32 z ->
  result_ok (thumb_assemble i ramPos (IInt z) pool) (thumb_meaning (FAddImm sub) (operands_of i) z ramPos).
Proof.
  intros P Hz. start P R D. destruct sub; open_form D; rewrite (s32_small z Hz); change (8 - 1) with 7; change (- (7)) with (-7);
  (destruct ((-7 <=? z) && (z <? 0)) eqn:E1; [|test; [refused|]]).
  all: cbv beta iota; try (replace ((- z <? 0) || (- z >? 7)) with false by (symmetry; lia)); accepted.
  all: generalize dependent (h_rd i); generalize dependent (h_rs i); intros rs Hs rd Hd.
  - replace (z <? 0) with true by (symmetry; lia). replace (Z.abs z) with (- z) by lia. set (k := - z) in *. assert (0 <= k < 8) by lia. clearbody k. clear E1.
    enum3 k 8%nat rs 8%nat rd 8%nat.
  - enum3 z 8%nat rs 8%nat rd 8%nat.
  - replace (z <? 0) with true by (symmetry; lia). replace (Z.abs z) with (- z) by lia. set (k := - z) in *. assert (0 <= k < 8) by lia. clearbody k. clear E1.
    enum3 k 8%nat rs 8%nat rd 8%nat.
  - enum3 z 8%nat rs 8%nat rd 8%nat.
Qed.
Lemma form_imm op name mask i ramPos z pool : parsed name mask (FImm op) i -> is_int32 z ->
  result_ok (thumb_assemble i ramPos (IInt z) pool) (thumb_meaning (FImm op) (operands_of i) z ramPos).
Proof.
  intros P Hz. start P R D. assert (F : form_ok (FImm op) = true) by tauto. cbn [form_ok] in F.
  assert (Hop : op = 0 \/ op = 1 \/ op = 2 \/ op = 3) by lia. clear F.
  destruct Hop as [-> | [-> | [-> | ->] ] ]; cbn [Z.leb Z.compare Pos.compare Pos.compare_cont] in D; open_form D; rewrite (s32_small z Hz); change (256 - 1) with 255; change (- (255)) with (-255);
  cbn [thumb_meaning Z.leb Z.compare Pos.compare Pos.compare_cont].
  1,2: test; [refused|accepted]; generalize dependent (h_rd i); intros rd Hd; enum2 z 256%nat rd 8%nat.
  all: (destruct ((-255 <=? z) && (z <? 0)) eqn:E1; [|test; [refused|]]).
  all: cbv beta iota; try (replace ((- z <? 0) || (- z >? 255)) with false by (symmetry; lia)); accepted.
  all: generalize dependent (h_rd i); intros rd Hd.
  - replace (z <? 0) with true by (symmetry; lia). replace (Z.abs z) with (- z) by lia. set (k := - z) in *. assert (0 <= k < 256) by lia. clearbody k. clear E1.
    enum2 k 256%nat rd 8%nat.
  - enum2 z 256%nat rd 8%nat.
  - replace (z <? 0) with true by (symmetry; lia). replace (Z.abs z) with (- z) by lia. set (k := - z) in *. assert (0 <= k < 256) by lia. clearbody k. clear E1.
    enum2 k 256%nat rd 8%nat.
  - enum2 z 256%nat rd 8%nat.
Qed.

Ltac quarter z k := let E := fresh in let H := fresh in
  rewrite ?land3, ?land1, ?shiftr1, ?shiftr2 in *.
Lemma form_word f name mask i ramPos z pool : parsed name mask f i -> is_int32 z ->
  f = FLoadPc \/ f = FMemSp true \/ f = FMemSp false \/ f = FAddPc \/ f = FAddSp ->
  result_ok (thumb_assemble i ramPos (IInt z) pool) (thumb_meaning f (operands_of i) z ramPos).
Proof.
  intros P Hz Hf. destruct Hf as [-> | [-> | [-> | [-> | ->] ] ] ]; start P R D; open_form D; rewrite (s32_small z Hz), land3, shiftr2; change (256 - 1) with 255;
    (destruct (Z.eqb_spec (z mod 4) 0) as [E0|E0]; cbn [negb rbind]; [|refused]; test; [refused|accepted]);
    (assert (Ez : z = 4 * (z / 4)) by lia); set (k := z / 4) in *; (assert (0 <= k < 256) by lia); clearbody k; clear E0 E; rewrite Ez; clear Ez Hz z;
    generalize dependent (h_rd i); intros rd Hd; enum2 k 256%nat rd 8%nat.
Qed.
Lemma form_adjust sub name mask i ramPos z pool : parsed name mask (FAdjust sub) i -> is_int32 z ->
  result_ok (thumb_assemble i ramPos (IInt z) pool) (thumb_meaning (FAdjust sub) (operands_of i) z ramPos).
Proof.
  intros P Hz. start P R D. destruct sub; open_form D; rewrite (s32_small z Hz), land3, shiftr2; change (128 - 1) with 127; change (- (127)) with (-127);
  (destruct (Z.eqb_spec (z mod 4) 0) as [E0|E0]; cbn [negb rbind]; [|refused]);
  (destruct ((-127 <=? z / 4) && (z / 4 <? 0)) eqn:E1; [|test; [refused|]]);
  cbv beta iota; try (replace ((- (z / 4) <? 0) || (- (z / 4) >? 127)) with false by (symmetry; lia)); accepted.
  all: (assert (Ez : z = 4 * (z / 4)) by lia); set (k := z / 4) in *; rewrite Ez; clearbody k; clear Ez Hz E0.
  - set (m := - k). replace k with (- m) by lia. assert (1 <= m < 128) by lia. clearbody m. enum1 m 128%nat.
  - assert (0 <= k < 128) by lia. destruct (Z.eq_dec k 0) as [->|]; [reflexivity|].
    enum1 k 128%nat.
  - set (m := - k). replace k with (- m) by lia. assert (0 <= m < 128) by lia. clearbody m. enum1 m 128%nat.
  - assert (0 <= k < 128) by lia. enum1 k 128%nat.
Qed.
Lemma form_memimm load size name mask i ramPos z pool : parsed name mask (FMemImm load size) i -> is_int32 z ->
  result_ok (thumb_assemble i ramPos (IInt z) pool) (thumb_meaning (FMemImm load size) (operands_of i) z ramPos).
Proof.
  intros P Hz. start P R D. assert (F : form_ok (FMemImm load size) = true) by tauto. cbn [form_ok] in F.
  assert (Ho : size = 1 \/ size = 2 \/ size = 4) by lia. clear F.
  destruct load; destruct Ho as [-> | [-> | ->] ]; open_form D; rewrite (s32_small z Hz), ?land3, ?shiftr2, ?land1, ?shiftr1; change (32 - 1) with 31.
  1,4: test; [refused|accepted]; generalize dependent (h_rd i); generalize dependent (h_rs i); intros rs Hs rd Hd; enum3 z 32%nat rs 8%nat rd 8%nat.
  - (destruct (Z.eqb_spec (z mod 2) 0) as [E0|E0]; cbn [negb rbind]; [|refused]; test; [refused|accepted]).
    (assert (Ez : z = 2 * (z / 2)) by lia); set (k := z / 2) in *; (assert (0 <= k < 32) by lia); clearbody k; clear E0 E; rewrite Ez; clear Ez Hz z.
    generalize dependent (h_rd i); generalize dependent (h_rs i); intros rs Hs rd Hd; enum3 k 32%nat rs 8%nat rd 8%nat.
  - (destruct (Z.eqb_spec (z mod 4) 0) as [E0|E0]; cbn [negb rbind]; [|refused]; test; [refused|accepted]).
    (assert (Ez : z = 4 * (z / 4)) by lia); set (k := z / 4) in *; (assert (0 <= k < 32) by lia); clearbody k; clear E0 E; rewrite Ez; clear Ez Hz z.
    generalize dependent (h_rd i); generalize dependent (h_rs i); intros rs Hs rd Hd; enum3 k 32%nat rs 8%nat rd 8%nat.
  - (destruct (Z.eqb_spec (z mod 2) 0) as [E0|E0]; cbn [negb rbind]; [|refused]; test; [refused|accepted]).
    (assert (Ez : z = 2 * (z / 2)) by lia); set (k := z / 2) in *; (assert (0 <= k < 32) by lia); clearbody k; clear E0 E; rewrite Ez; clear Ez Hz z.
    generalize dependent (h_rd i); generalize dependent (h_rs i); intros rs Hs rd Hd; enum3 k 32%nat rs 8%nat rd 8%nat.
  - (destruct (Z.eqb_spec (z mod 4) 0) as [E0|E0]; cbn [negb rbind]; [|refused]; test; [refused|accepted]).
    (assert (Ez : z = 4 * (z / 4)) by lia); set (k := z / 4) in *; (assert (0 <= k < 32) by lia); clearbody k; clear E0 E; rewrite Ez; clear Ez Hz z.
    generalize dependent (h_rd i); generalize dependent (h_rs i); intros rs Hs rd Hd; enum3 k 32%nat rs 8%nat rd 8%nat.
Qed.
Lemma form_small f name mask i ramPos z pool : parsed name mask f i -> is_int32 z -> f = FSwi \/ f = FBkpt \/ f = FLow ->
  result_ok (thumb_assemble i ramPos (IInt z) pool) (thumb_meaning f (operands_of i) z ramPos).
Proof.
  intros P Hz [-> | [-> | ->] ]; start P R D; open_form D; rewrite (s32_small z Hz), ?land1, ?shiftr1; change (256 - 1) with 255; change (2048 - 1) with 2047.
  1,2: test; [refused|accepted]; enum1 z 256%nat.
  (destruct (Z.eqb_spec (z mod 2) 0) as [E0|E0]; cbn [negb rbind]; [|refused]; test; [refused|accepted]).
  set (k := z / 2) in *. assert (0 <= k < 2048) by lia. clearbody k. enum1 k 2048%nat.
Qed.
