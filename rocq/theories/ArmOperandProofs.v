(** Operands of ARM instructions: registers, register lists, status registers, shifts. *)

Require Import ZArith Lia Bool List String Ascii.
Require Import ZifyBool.
Require Import Verif.Ints Verif.ExprModel Verif.ParseModel Verif.ArmModel Verif.ArmLineModel Verif.ArmLineSpec.
Import ListNotations.
Local Open Scope Z_scope.

(** * Registers *)

Lemma lookup_in n t k : lookup n t = Some k -> In (n, k) t.
Proof.
  induction t as [|(m & j) t IH]; cbn [lookup]; [discriminate|].
  destruct (String.eqb_spec n m) as [->|]; intros H; [injection H as ->; left; reflexivity|right; auto].
Qed.
Ltac in_cases H := repeat (destruct H as [H|H]; [injection H as <- <-|]); [..|destruct H].
Lemma reg_lookup n x : register n x <-> lookup n armRegisters = Some x.
Proof.
  split.
  - intros H. unfold register in H. cbn in H. in_cases H; reflexivity.
  - intros H. apply lookup_in in H. cbn in H. unfold register. cbn. tauto.
Qed.
Lemma cop_lookup n x : cop_register n x <-> lookup n armCopRegisters = Some x.
Proof.
  split.
  - intros H. unfold cop_register in H. cbn in H. in_cases H; reflexivity.
  - intros H. apply lookup_in in H. cbn in H. unfold cop_register. cbn. tauto.
Qed.
Lemma cp_lookup n x : cop_number n x <-> lookup n armCopNumbers = Some x.
Proof.
  split.
  - intros H. unfold cop_number in H. cbn in H. in_cases H; reflexivity.
  - intros H. apply lookup_in in H. cbn in H. unfold cop_number. cbn. tauto.
Qed.
Lemma reg_range n x : register n x -> 0 <= x <= 15.
Proof. intros H. unfold register in H. cbn in H. in_cases H; lia. Qed.
Lemma cop_range n x : cop_register n x -> 0 <= x <= 15.
Proof. intros H. unfold cop_register in H. cbn in H. in_cases H; lia. Qed.
Lemma cp_range n x : cop_number n x -> 0 <= x <= 15.
Proof. intros H. unfold cop_number in H. cbn in H. in_cases H; lia. Qed.

(** * Register lists *)

Lemma range_bits n : forall a i, 0 <= a -> 0 <= i -> Z.testbit (range_mask a n) i = (a <=? i) && (i <? a + Z.of_nat n).
Proof.
  induction n as [|n IH]; intros a i Ha Hi; cbn [range_mask].
  - rewrite Z.testbit_0_l. lia.
  - rewrite Z.lor_spec, IH by lia. rewrite Z.shiftl_spec by lia.
    destruct (Z.eqb_spec i a) as [->|N].
    + rewrite Z.sub_diag. change (Z.testbit 1 0) with true. cbn [orb]. lia.
    + destruct (Z.ltb_spec i a).
      * rewrite Z.testbit_neg_r by lia. lia.
      * replace (Z.testbit 1 (i - a)) with false; [lia|]. symmetry. change 1 with (2 ^ 0). apply Z.pow2_bits_false. lia.
Qed.
Definition mask_of (l : list (Z * Z)) : Z :=
  fold_right (fun ab m => Z.lor (range_mask (fst ab) (Z.to_nat (snd ab - fst ab + 1))) m) 0 l.
Definition in_range (ab : Z * Z) : Prop := 0 <= fst ab <= snd ab /\ snd ab <= 15.
Lemma items_range ts l r : list_items ts l r -> Forall in_range l.
Proof.
  induction 1; repeat constructor; cbn [fst snd]; auto;
    repeat match goal with H : register _ _ |- _ => apply reg_range in H end; lia.
Qed.
Lemma mask_bits l i : Forall in_range l -> 0 <= i ->
  (Z.testbit (mask_of l) i = true <-> exists a b, In (a, b) l /\ a <= i <= b).
Proof.
  intros H Hi. induction H as [|(a & b) l (A & B) H IH]; cbn [mask_of fold_right].
  - rewrite Z.testbit_0_l. split; [discriminate|]. intros (a & b & [] & _).
  - cbn [fst snd] in *. rewrite Z.lor_spec, orb_true_iff. fold (mask_of l). rewrite IH, range_bits by lia. split.
    + intros [E|(a' & b' & I & E)]; [exists a, b; split; [left; reflexivity|lia]|exists a', b'; split; [right; exact I|exact E]].
    + intros (a' & b' & [E|I] & L); [injection E as <- <-; left; lia|right; exists a', b'; auto].
Qed.
Lemma mask_range l : Forall in_range l -> 0 <= mask_of l < 65536.
Proof.
  intros H. assert (N : 0 <= mask_of l).
  { clear H. induction l as [|(a & b) l IH]; cbn [mask_of fold_right]; [lia|]. apply Z.lor_nonneg. split; [|exact IH].
    cbn [fst snd]. generalize (Z.to_nat (b - a + 1)). intros n. revert a. induction n; intros a; cbn [range_mask]; [lia|].
    apply Z.lor_nonneg. split; [|apply IHn]. apply Z.shiftl_nonneg. lia. }
  split; [exact N|]. destruct (Z.ltb_spec (mask_of l) 65536) as [|G]; [assumption|exfalso].
  assert (P : 0 < mask_of l) by lia. pose proof (Z.bit_log2 _ P) as B. pose proof (Z.log2_nonneg (mask_of l)) as L.
  assert (L16 : 16 <= Z.log2 (mask_of l)) by (apply Z.log2_le_pow2; [exact P|exact G]).
  apply mask_bits in B; [|exact H|exact L]. destruct B as (a & b & I & E). rewrite Forall_forall in H. specialize (H _ I).
  unfold in_range in H. cbn [fst snd] in H. lia.
Qed.
Lemma list_mask_of l m : Forall in_range l -> list_mask l m <-> m = mask_of l.
Proof.
  intros H. split.
  - intros (R & B). apply Z.bits_inj'. intros i Hi. destruct (Z.ltb_spec i 16).
    + apply eq_true_iff_eq. rewrite B by lia. symmetry. apply mask_bits; assumption.
    + pose proof (mask_range l H) as R2.
      assert (X : forall x, 0 <= x < 65536 -> Z.testbit x i = false).
      { intros x Hx. destruct (Z.eqb_spec x 0) as [->|]; [apply Z.testbit_0_l|]. apply Z.bits_above_log2; [lia|].
        apply Z.lt_le_trans with 16; [|assumption]. apply Z.log2_lt_pow2; [lia|]. exact (proj2 Hx). }
      rewrite !X by assumption. reflexivity.
  - intros ->. split; [apply mask_range; exact H|]. intros i Hi. apply mask_bits; [exact H|lia].
Qed.

Lemma one_range a : Z.lor (Z.shiftl 1 a) 0 = range_mask a (Z.to_nat (a - a + 1)).
Proof. replace (a - a + 1) with 1 by lia. reflexivity. Qed.
Lemma list_complete ts l r : list_items ts l r -> forall acc, parse_list acc ts = Some (Z.lor acc (mask_of l), r).
Proof.
  induction 1 as [n a r R N1 N2|n m a b r R1 R2 L N|n a ts l r R H IH|n m a b ts l r R1 R2 L H IH]; intros acc;
    cbn [parse_list mask_of fold_right fst snd].
  - rewrite (proj1 (reg_lookup _ _) R), <- one_range, !Z.lor_0_r.
    destruct r as [|t r]; [reflexivity|]. destruct t; try reflexivity; exfalso; [apply N2|apply N1]; reflexivity.
  - rewrite (proj1 (reg_lookup _ _) R1), (proj1 (reg_lookup _ _) R2). replace (b <? a) with false by lia. rewrite Z.lor_0_r.
    destruct r as [|t r]; [reflexivity|]. destruct t; try reflexivity; exfalso; apply N; reflexivity.
  - rewrite (proj1 (reg_lookup _ _) R), IH, <- one_range, Z.lor_0_r, Z.lor_assoc. reflexivity.
  - rewrite (proj1 (reg_lookup _ _) R1), (proj1 (reg_lookup _ _) R2). replace (b <? a) with false by lia.
    rewrite IH, Z.lor_assoc. reflexivity.
Qed.
Lemma list_sound k : forall ts acc m r, (List.length ts < k)%nat -> parse_list acc ts = Some (m, r) ->
  exists l, list_items ts l r.
Proof.
  induction k as [|k IH]; intros ts acc m r L H; [lia|].
  destruct ts as [|t ts]; [discriminate|]. destruct t; try discriminate. cbn [parse_list] in H.
  destruct (lookup n armRegisters) as [a|] eqn:E; [|discriminate]. apply reg_lookup in E.
  assert (one : ~ next_is TComma ts -> ~ next_is TMinus ts -> ts = r -> exists l, list_items (TIdent n :: ts) l r).
  { intros N1 N2 <-. eexists. apply li_one; eauto. }
  destruct ts as [|t ts].
  { apply one; [intros []|intros []|congruence]. }
  destruct t; try (apply one; [discriminate|discriminate|congruence]).
  - destruct ts as [|t ts]; [discriminate|]. destruct t; try discriminate. rename n0 into m'.
    destruct (lookup m' armRegisters) as [b|] eqn:E'; [|discriminate]. apply reg_lookup in E'.
    destruct (Z.ltb_spec b a); [discriminate|].
    assert (last : ~ next_is TComma ts -> ts = r -> exists l, list_items (TIdent n :: TMinus :: TIdent m' :: ts) l r).
    { intros N <-. eexists. apply li_range; eauto. }
    destruct ts as [|t ts].
    { apply last; [intros []|congruence]. }
    destruct t; try (apply last; [discriminate|congruence]).
    apply IH in H; [|cbn [List.length] in L; lia]. destruct H as (l & H). eexists. apply li_range_more; eauto.
  - apply IH in H; [|cbn [List.length] in L; lia]. destruct H as (l & H). eexists. apply li_one_more; eauto.
Qed.

(** * Status registers *)

Definition fb (c : ascii) : Z := match field_bit c with Some b => b | None => 0 end.
Definition val (l : list ascii) : Z := fold_right (fun c s => fb c + s) 0 l.
Definition is_field (c : ascii) : Prop := In c ["f"; "s"; "x"; "c"]%char.
Lemma is_field_bit c : is_field c <-> exists b, field_bit c = Some b.
Proof.
  unfold is_field, field_bit. split.
  - intros [<-|[<-|[<-|[<-|[]]]]]; eexists; reflexivity.
  - destruct (Ascii.eqb_spec c "f"); [subst; cbn; auto|]. destruct (Ascii.eqb_spec c "s"); [subst; cbn; auto|].
    destruct (Ascii.eqb_spec c "x"); [subst; cbn; auto|]. destruct (Ascii.eqb_spec c "c"); [subst; cbn; auto 6|].
    intros (b & E). discriminate.
Qed.
Lemma field_cons c l : is_field c -> ~ In c l -> field_value (c :: l) = fb c + field_value l.
Proof.
  intros F N. unfold field_value.
  assert (S : forall d b, (if in_dec ascii_dec d (c :: l) then b else 0) =
                          (if ascii_dec c d then b else if in_dec ascii_dec d l then b else 0) :> Z).
  { intros d b. destruct (in_dec ascii_dec d (c :: l)) as [I|I], (ascii_dec c d) as [E|E]; try reflexivity.
    - destruct I as [I|I]; [contradiction|]. destruct (in_dec ascii_dec d l); [reflexivity|contradiction].
    - exfalso. apply I. left. exact E.
    - destruct (in_dec ascii_dec d l); [exfalso; apply I; right; assumption|reflexivity]. }
  rewrite !S. destruct F as [<-|[<-|[<-|[<-|[]]]]];
    match goal with |- context [fb ?c] => change (fb c) with (match field_bit c with Some b => b | None => 0 end);
      let v := eval vm_compute in (match field_bit c with Some b => b | None => 0 end) in
      change (match field_bit c with Some b => b | None => 0 end) with v end;
    repeat match goal with |- context [ascii_dec ?a ?b] => destruct (ascii_dec a b); try discriminate; try congruence end;
    match goal with |- context [in_dec ascii_dec ?c l] => idtac end;
    repeat match goal with |- context [in_dec ascii_dec ?c l] => destruct (in_dec ascii_dec c l); try contradiction end; lia.
Qed.
Lemma field_val l : field_letters l -> field_value l = val l.
Proof.
  intros (N & F). induction N as [|c l I N IH]; [reflexivity|]. rewrite field_cons, IH; auto.
  - intros d D. apply F. right. exact D.
  - apply F. left. reflexivity.
Qed.
Definition bit_table : bool :=
  forallb (fun f => forallb (fun b => implb (Z.land f b =? 0) ((Z.lor f b =? f + b) && (0 <=? f + b) && (f + b <? 16) &&
    forallb (fun b' => Bool.eqb (Z.land (f + b) b' =? 0) ((Z.land f b' =? 0) && negb (b =? b'))) [8; 4; 2; 1])) [8; 4; 2; 1])
  [0; 1; 2; 3; 4; 5; 6; 7; 8; 9; 10; 11; 12; 13; 14; 15].
Lemma bit_step f b : 0 <= f < 16 -> In b [8; 4; 2; 1] -> Z.land f b = 0 ->
  Z.lor f b = f + b /\ 0 <= f + b < 16 /\
  forall b', In b' [8; 4; 2; 1] -> (Z.land (f + b) b' = 0 <-> Z.land f b' = 0 /\ b <> b').
Proof.
  intros Hf Hb Hz. assert (T : bit_table = true) by (vm_compute; reflexivity). unfold bit_table in T.
  rewrite forallb_forall in T.
  assert (I : In f [0; 1; 2; 3; 4; 5; 6; 7; 8; 9; 10; 11; 12; 13; 14; 15]) by (cbn; lia).
  specialize (T _ I). cbv beta in T. rewrite forallb_forall in T. specialize (T _ Hb). cbv beta in T.
  rewrite Hz in T. cbn [Z.eqb implb] in T. rewrite !andb_true_iff in T. destruct T as (((T1 & T2) & T3) & T4).
  split; [lia|]. split; [lia|]. intros b' Hb'. rewrite forallb_forall in T4. specialize (T4 _ Hb').
  apply eqb_prop in T4. clear - T4. lia.
Qed.
Lemma fb_in c : is_field c -> field_bit c = Some (fb c) /\ In (fb c) [8; 4; 2; 1].
Proof. intros [<-|[<-|[<-|[<-|[]]]]]; (split; [reflexivity|cbn; auto 6]). Qed.
Lemma fb_inj c d : is_field c -> is_field d -> fb c = fb d -> c = d.
Proof.
  intros [<-|[<-|[<-|[<-|[]]]]] [<-|[<-|[<-|[<-|[]]]]]; intros E; try reflexivity; vm_compute in E; discriminate.
Qed.
Definition reads_fields (n : nat) (s : string) (f0 f : Z) (l : list ascii) (junk : string) : Prop :=
  s = (string_of_list_ascii l ++ junk)%string /\ (List.length l <= n)%nat /\ (junk = ""%string \/ List.length l = n) /\
  NoDup l /\ (forall c, In c l -> is_field c /\ Z.land f0 (fb c) = 0) /\ f = f0 + val l.
Lemma fields_sound n : forall s f0 f, 0 <= f0 < 16 -> psr_fields n s f0 = Some f ->
  exists l junk, reads_fields n s f0 f l junk.
Proof.
  induction n as [|n IH]; intros s f0 f R H; cbn [psr_fields] in H.
  - exists [], s. injection H as <-. unfold reads_fields, val. cbn [fold_right string_of_list_ascii String.append List.length].
    split; [reflexivity|]. split; [lia|]. split; [right; reflexivity|]. split; [constructor|]. split; [intros c []|lia].
  - destruct s as [|c r].
    + injection H as <-. exists [], ""%string. unfold reads_fields, val. cbn [fold_right string_of_list_ascii String.append List.length].
      split; [reflexivity|]. split; [lia|]. split; [left; reflexivity|]. split; [constructor|]. split; [intros c []|lia].
    + destruct (field_bit c) as [b|] eqn:B; [|discriminate]. destruct (Z.eqb_spec (Z.land f0 b) 0) as [Z0|]; [|discriminate].
      assert (F : is_field c) by (apply is_field_bit; eauto). destruct (fb_in c F) as (E & I). rewrite B in E. injection E as ->.
      destruct (bit_step _ _ R I Z0) as (S1 & S2 & S3). rewrite S1 in H.
      destruct (IH _ _ _ S2 H) as (l & junk & -> & L & J & N & P & ->).
      exists (c :: l), junk. unfold reads_fields. cbn [string_of_list_ascii String.append List.length]. split; [reflexivity|].
      split; [lia|]. split; [destruct J; [left; assumption|right; lia]|].
      split.
      { constructor; [|exact N]. intros D. destruct (P _ D) as (_ & Q). apply S3 in Q; [|exact I]. destruct Q as (_ & Q). apply Q. reflexivity. }
      split; [|cbn [val fold_right]; fold (val l); lia].
      intros d [<-|D]; [auto|]. destruct (P _ D) as (Fd & Q). split; [exact Fd|]. apply S3 in Q; [exact (proj1 Q)|].
      apply fb_in; exact Fd.
Qed.
Lemma fields_complete n : forall s f0 f l junk, 0 <= f0 < 16 -> reads_fields n s f0 f l junk -> psr_fields n s f0 = Some f.
Proof.
  induction n as [|n IH]; intros s f0 f l junk R (-> & L & J & N & P & ->).
  - destruct l; [|cbn in L; lia]. cbn. f_equal. lia.
  - destruct l as [|c l].
    + destruct J as [-> |J]; [|discriminate]. cbn. f_equal. lia.
    + cbn [string_of_list_ascii String.append psr_fields]. destruct (P c (or_introl eq_refl)) as (F & Z0).
      destruct (fb_in c F) as (E & I). rewrite E, Z0. cbn [Z.eqb].
      destruct (bit_step _ _ R I Z0) as (S1 & S2 & S3). rewrite S1.
      inversion N as [|? ? D N']; subst. eapply IH; [exact S2|].
      split; [reflexivity|]. cbn [List.length] in *. split; [lia|]. split; [destruct J; [left; assumption|right; lia]|].
      split; [exact N'|]. split; [|cbn [val fold_right]; fold (val l); lia].
      intros d Hd. destruct (P d (or_intror Hd)) as (Fd & Qd). split; [exact Fd|]. apply S3; [apply fb_in; exact Fd|].
      split; [exact Qd|]. intros E'. apply D. rewrite (fb_inj c d F Fd E'). exact Hd.
Qed.

Lemma after_some p s r : after p s = Some r <-> s = (p ++ r)%string.
Proof.
  revert s. induction p as [|a p IH]; intros s; cbn [after String.append].
  - split; congruence.
  - destruct s as [|b s]; [split; discriminate|]. destruct (Ascii.eqb_spec a b) as [->|N].
    + rewrite IH. split; congruence.
    + split; [discriminate|]. intros E. congruence.
Qed.
(** Texts that start with a field letter do not start with ctl or flg, and the other way round. *)
Lemma after_ctl l junk : field_letters l -> after "ctl" (string_of_list_ascii l ++ junk) <> None ->
  List.length l = 4%nat \/ junk = ""%string -> (String.length junk <> 0)%nat /\ False \/ False.
Proof.
  intros (N & F) H J. exfalso.
  destruct (after _ _) as [r|] eqn:E; [|contradiction]. apply after_some in E. cbn [String.append] in E.
  destruct l as [|a [|b l]]; cbn [string_of_list_ascii String.append] in E.
  - destruct J as [J|J]; [discriminate|]. subst. discriminate.
  - destruct J as [J|J]; [discriminate|]. subst. cbn in E. discriminate.
  - injection E as -> -> _. assert (X : is_field "t") by (apply F; right; left; reflexivity).
    destruct X as [X|[X|[X|[X|[]]]]]; discriminate.
Qed.
Lemma after_flg l junk : field_letters l -> after "flg" (string_of_list_ascii l ++ junk) <> None ->
  List.length l = 4%nat \/ junk = ""%string -> False.
Proof.
  intros (N & F) H J.
  destruct (after _ _) as [r|] eqn:E; [|contradiction]. apply after_some in E. cbn [String.append] in E.
  destruct l as [|a [|b l]]; cbn [string_of_list_ascii String.append] in E.
  - destruct J as [J|J]; [discriminate|]. subst. discriminate.
  - destruct J as [J|J]; [discriminate|]. subst. cbn in E. discriminate.
  - injection E as -> -> _. assert (X : is_field "l") by (apply F; right; left; reflexivity).
    destruct X as [X|[X|[X|[X|[]]]]]; discriminate.
Qed.

Definition psr_rest (short : bool) (spsr : bool) (r : string) : option (bool * Z) :=
  match r with
  | EmptyString => Some (spsr, 0xF)
  | String c r1 =>
      if short then None
      else if negb (Ascii.eqb c "_") then None
      else match after "ctl" r1 with
           | Some r2 => if String.eqb r2 "" then Some (spsr, 1) else None
           | None =>
             match after "flg" r1 with
             | Some r2 => if String.eqb r2 "" then Some (spsr, 8) else None
             | None => match psr_fields 4 r1 0 with Some f => Some (spsr, f) | None => None end
             end
           end
  end.
Lemma psr_open short s : psr_text short s =
  match after "cpsr" s with
  | Some r => psr_rest short false r
  | None => match after "spsr" s with Some r => psr_rest short true r | None => None end
  end.
Proof. reflexivity. Qed.
Lemma psr_named short sp r : psr_text short (psr_name sp ++ r) = psr_rest short sp r.
Proof. destruct sp; reflexivity. Qed.
Lemma psr_split short s x : psr_text short s = Some x -> exists sp r, s = (psr_name sp ++ r)%string /\ psr_rest short sp r = Some x.
Proof.
  rewrite psr_open. destruct (after "cpsr" s) as [r|] eqn:E.
  - intros H. exists false, r. apply after_some in E. auto.
  - destruct (after "spsr" s) as [r|] eqn:E'; [|discriminate]. intros H. exists true, r. apply after_some in E'. auto.
Qed.
Lemma app_empty s : (s ++ "")%string = s.
Proof. induction s; cbn; congruence. Qed.
Lemma psr_complete sp s f j : psr_written sp s f j -> psr_text false s = Some (sp, f).
Proof.
  destruct 1 as [| | |l junk L J].
  - rewrite <- (app_empty (psr_name sp)), psr_named. reflexivity.
  - rewrite psr_named. reflexivity.
  - rewrite psr_named. reflexivity.
  - rewrite psr_named. cbn [String.append psr_rest negb Ascii.eqb Bool.eqb].
    assert (J' : List.length l = 4%nat \/ junk = ""%string) by tauto.
    destruct (after "ctl" _) eqn:E1.
    { exfalso. destruct (after_ctl l junk L) as [(_ & [])|[]]; [congruence|exact J']. }
    destruct (after "flg" _) eqn:E2.
    { exfalso. apply (after_flg l junk L); [congruence|exact J']. }
    assert (L4 : (List.length l <= 4)%nat).
    { destruct L as (N & F). apply (NoDup_incl_length N (l' := ["f"; "s"; "x"; "c"]%char)). exact F. }
    rewrite (fields_complete 4 _ 0 (field_value l) l junk ltac:(lia)); [reflexivity|].
    split; [reflexivity|]. split; [exact L4|]. split; [tauto|]. split; [exact (proj1 L)|].
    split; [intros c Hc; split; [apply L; exact Hc|apply Z.land_0_l]|]. rewrite field_val by exact L. lia.
Qed.
Lemma psr_sound s sp f : psr_text false s = Some (sp, f) -> exists j, psr_written sp s f j.
Proof.
  intros H. apply psr_split in H. destruct H as (sp' & r & -> & H).
  destruct r as [|c r]; cbn [psr_rest] in H.
  { injection H as <- <-. rewrite app_empty. eexists. constructor. }
  destruct (Ascii.eqb_spec c "_") as [->|]; cbn [negb] in H; [|discriminate].
  destruct (after "ctl" r) as [r2|] eqn:E1.
  { destruct (String.eqb_spec r2 "") as [->|]; [|discriminate]. apply after_some in E1. subst r. injection H as <- <-.
    eexists. apply psr_ctl. }
  destruct (after "flg" r) as [r2|] eqn:E2.
  { destruct (String.eqb_spec r2 "") as [->|]; [|discriminate]. apply after_some in E2. subst r. injection H as <- <-.
    eexists. apply psr_flg. }
  destruct (psr_fields 4 r 0) as [f'|] eqn:F; [|discriminate]. injection H as <- <-.
  destruct (fields_sound 4 _ 0 _ ltac:(lia) F) as (l & junk & -> & L & J & N & P & ->).
  assert (FL : field_letters l) by (split; [exact N|intros c Hc; apply P; exact Hc]).
  exists (negb (String.eqb junk "")). rewrite Z.add_0_l, <- field_val by exact FL.
  change (String "_" (string_of_list_ascii l ++ junk)) with ("_" ++ string_of_list_ascii l ++ junk)%string.
  apply psr_letters; assumption.
Qed.
Lemma psr_short s sp f : psr_text true s = Some (sp, f) <-> s = psr_name sp /\ f = 15.
Proof.
  split.
  - intros H. apply psr_split in H. destruct H as (sp' & r & -> & H).
    destruct r; cbn [psr_rest] in H; [|discriminate]. injection H as <- <-. rewrite app_empty. auto.
  - intros (-> & ->). rewrite <- (app_empty (psr_name sp)), psr_named. reflexivity.
Qed.
Lemma psr_range sp s f j : psr_written sp s f j -> 0 <= f < 16.
Proof.
  destruct 1; try lia. unfold field_value.
  repeat match goal with |- context [in_dec ?d ?c l] => destruct (in_dec d c l) end; lia.
Qed.

(** * Digits at the end of a name *)

Definition is_dig (c : ascii) : Prop := exists d, digit_of c = Some d.
Lemma split_app a : forall b ds t, Forall is_dig a -> split_digits b = (ds, t) ->
  exists da, split_digits (a ++ b) = (da ++ ds, t) /\ List.length da = List.length a /\
             Forall2 (fun c d => digit_of c = Some d) a da.
Proof.
  induction a as [|c a IH]; intros b ds t F H.
  - exists []. auto.
  - inversion F as [|? ? (d & D) F']; subst. destruct (IH _ _ _ F' H) as (da & E & L & X).
    exists (d :: da). cbn [app split_digits]. rewrite D, E. cbn [List.length]. split; [reflexivity|]. split; [lia|]. constructor; auto.
Qed.
Lemma split_back l : forall ds t, split_digits l = (ds, t) ->
  exists a, l = a ++ t /\ Forall2 (fun c d => digit_of c = Some d) a ds /\ match t with c :: _ => digit_of c = None | [] => True end.
Proof.
  induction l as [|c l IH]; intros ds t H; cbn [split_digits] in H.
  - injection H as <- <-. exists []. auto.
  - destruct (digit_of c) as [d|] eqn:D.
    + destruct (split_digits l) as (ds' & t') eqn:E. injection H as <- <-. destruct (IH _ _ eq_refl) as (a & -> & F & T).
      exists (c :: a). split; [reflexivity|]. split; [constructor; assumption|exact T].
    + injection H as <- <-. exists []. split; [reflexivity|]. split; [constructor|exact D].
Qed.
Lemma digits_app a b : digits_value (a ++ b) = digits_value a + 10 ^ Z.of_nat (List.length a) * digits_value b.
Proof.
  induction a as [|d a IH]; cbn [app digits_value List.length]; [lia|]. rewrite IH, Nat2Z.inj_succ, Z.pow_succ_r by lia. lia.
Qed.
Lemma decimal_digits s : forall acc x, decimal acc s = Some x <->
  exists ds, Forall2 (fun c d => digit_of c = Some d) (list_ascii_of_string s) ds /\
             x = acc * 10 ^ Z.of_nat (List.length ds) + digits_value (rev ds).
Proof.
  induction s as [|c s IH]; intros acc x; cbn [decimal list_ascii_of_string].
  - split.
    + intros H. injection H as <-. exists []. split; [constructor|]. cbn. lia.
    + intros (ds & F & ->). inversion F; subst. cbn. f_equal. lia.
  - assert (E : digit_of c = if (48 <=? Z.of_nat (nat_of_ascii c)) && (Z.of_nat (nat_of_ascii c) <=? 57)
                             then Some (Z.of_nat (nat_of_ascii c) - 48) else None) by reflexivity.
    destruct ((48 <=? _) && _).
    + rewrite IH. split.
      * intros (ds & F & ->). exists (Z.of_nat (nat_of_ascii c) - 48 :: ds). split; [constructor; assumption|].
        cbn [rev List.length]. rewrite digits_app. rewrite Nat2Z.inj_succ, Z.pow_succ_r, rev_length by lia. cbn [digits_value]. nia.
      * intros (ds & F & ->). inversion F as [|? d ? ds' D F']; subst. rewrite E in D. injection D as <-. exists ds'.
        split; [assumption|]. cbn [rev List.length]. rewrite digits_app, Nat2Z.inj_succ, Z.pow_succ_r, rev_length by lia.
        cbn [digits_value]. nia.
    + split; [discriminate|]. intros (ds & F & _). inversion F; subst. congruence.
Qed.
Lemma f2_len (a : list ascii) (b : list Z) : Forall2 (fun c d => digit_of c = Some d) a b -> List.length a = List.length b.
Proof. induction 1; cbn; congruence. Qed.
Lemma f2_rev (a : list ascii) (b : list Z) : Forall2 (fun c d => digit_of c = Some d) a b ->
  Forall2 (fun c d => digit_of c = Some d) (rev a) (rev b).
Proof. induction 1; cbn [rev]; [constructor|]. apply Forall2_app; [assumption|]. repeat constructor. assumption. Qed.
Lemma f2_func (a : list ascii) (b b' : list Z) : Forall2 (fun c d => digit_of c = Some d) a b ->
  Forall2 (fun c d => digit_of c = Some d) a b' -> b = b'.
Proof.
  intros H. revert b'. induction H; intros b' H'; inversion H'; subst; [reflexivity|]. f_equal; [congruence|auto].
Qed.
Lemma ascii_app a b : list_ascii_of_string (a ++ b) = list_ascii_of_string a ++ list_ascii_of_string b.
Proof. induction a; cbn; congruence. Qed.
Lemma ascii_len s : List.length (list_ascii_of_string s) = String.length s.
Proof. induction s; cbn; congruence. Qed.
Lemma shift_mode_in n ty : In (n, ty) shift_names <-> shift_mode n = Some ty.
Proof.
  split.
  - intros H. cbn in H. in_cases H; reflexivity.
  - unfold shift_mode.
    destruct (String.eqb_spec n "lsl"); cbn [orb]; [subst; intros H; injection H as <-; cbn; tauto|].
    destruct (String.eqb_spec n "asl"); [subst; intros H; injection H as <-; cbn; tauto|].
    destruct (String.eqb_spec n "lsr"); [subst; intros H; injection H as <-; cbn; tauto|].
    destruct (String.eqb_spec n "asr"); [subst; intros H; injection H as <-; cbn; tauto|].
    destruct (String.eqb_spec n "ror"); [subst; intros H; injection H as <-; cbn; tauto|].
    destruct (String.eqb_spec n "rrx"); [subst; intros H; injection H as <-; cbn; tauto|]. discriminate.
Qed.
Lemma shift_end n ty : In (n, ty) shift_names ->
  exists c r, rev (list_ascii_of_string n) = c :: r /\ digit_of c = None.
Proof. intros H. cbn in H. in_cases H; do 2 eexists; (split; [reflexivity|reflexivity]). Qed.

(** A name with digits behind it comes apart. *)
Lemma glued_complete n ty d x : In (n, ty) shift_names -> decimal 0 d = Some x ->
  exists ds, split_digits (rev (list_ascii_of_string (n ++ d))) = (ds, rev (list_ascii_of_string n)) /\
    List.length ds = String.length d /\ digits_value ds = x.
Proof.
  intros I D. apply decimal_digits in D. destruct D as (ds & F & ->).
  destruct (shift_end n ty I) as (c & r & E & N).
  assert (S0 : split_digits (rev (list_ascii_of_string n)) = ([], rev (list_ascii_of_string n))).
  { rewrite E. cbn [split_digits]. rewrite N. reflexivity. }
  assert (Fd : Forall is_dig (rev (list_ascii_of_string d))).
  { pose proof (f2_rev _ _ F) as G. clear - G. induction G; constructor; [eexists; eassumption|assumption]. }
  rewrite ascii_app, rev_app_distr.
  destruct (split_app _ _ _ _ Fd S0) as (da & Ea & La & Fa). rewrite app_nil_r in Ea. exists da. split; [exact Ea|].
  rewrite <- (f2_func _ _ _ (f2_rev _ _ F) Fa), !rev_length. rewrite <- (f2_len _ _ F), ascii_len. split; [reflexivity|]. lia.
Qed.
Lemma glued_sound n ds t : split_digits (rev (list_ascii_of_string n)) = (ds, t) ->
  exists d, n = (string_of_list_ascii (rev t) ++ d)%string /\ decimal 0 d = Some (digits_value ds) /\
            List.length ds = String.length d.
Proof.
  intros H. apply split_back in H. destruct H as (a & E & F & _).
  exists (string_of_list_ascii (rev a)). split.
  - rewrite <- (string_of_list_ascii_of_string n) at 1. rewrite <- (rev_involutive (list_ascii_of_string n)), E, rev_app_distr.
    generalize (rev t), (rev a). intros p s. induction p as [|c p IH]; [reflexivity|].
    cbn [app string_of_list_ascii String.append]. rewrite IH. reflexivity.
  - split.
    + apply decimal_digits. exists (rev ds). rewrite list_ascii_of_string_of_list_ascii. split; [apply f2_rev; exact F|].
      rewrite rev_involutive. lia.
    + rewrite <- (f2_len _ _ F), <- ascii_len, list_ascii_of_string_of_list_ascii, rev_length. reflexivity.
Qed.
