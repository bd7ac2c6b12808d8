(** Proofs about the operands of the vector unit: destinations, rotations, constants. *)

Require Import ZArith Bool List String Ascii Lia.
From Coq Require Import Floats.SpecFloat.
From Verif Require Import Ints ParseModel VfpuModel VfpuSpec VfpuProofs.
Import ListNotations.
Local Open Scope string_scope.
Local Open Scope list_scope.
Local Open Scope Z_scope.

(** ** Destinations *)
Definition encode_dest (i : Z) (d : dest) : Z :=
  match d with Keep => 0 | Mask => Z.shiftl 1 (8 + i) | Sat0 => Z.shiftl 1 (2 * i) | Sat1 => Z.shiftl 3 (2 * i) end.
Lemma dest_sound i result ts r rest : vpfxd_lane i result ts = Some (r, rest) -> exists d, ts = write_dest d ++ rest /\ r = Z.lor result (encode_dest i d).
Proof.
  assert (G : match seq_parse vpfxd_entries ts with
    | None => None
    | Some (num, ts) => Some (if num <? 0 then Z.lor result (Z.shiftl 1 (8 + i)) else Z.lor result (Z.shiftl num (2 * i)), ts)
    end = Some (r, rest) -> exists d, ts = write_dest d ++ rest /\ r = Z.lor result (encode_dest i d)).
  { destruct (seq_parse vpfxd_entries ts) as [[num ts1]|] eqn:S; [|discriminate]. apply seq_parse_sound in S; [|simples]. destruct S as (e & w & I & R & E & M).
    intros H. injection H as <- ->. cbn [vpfxd_entries In] in I.
    repeat destruct I as [<-|I]; try contradiction; cbn in R, M; injection M as <-; subst num ts; [exists Mask|exists Sat0|exists Sat1]; split; reflexivity. }
  intros H. unfold vpfxd_lane in H. destruct ts as [|t ts]; [apply G; exact H|].
  destruct t; try (apply G; exact H).
  - destruct (i <? 3); [|discriminate]. injection H as <- <-. exists Keep. split; [reflexivity|]. symmetry. apply Z.lor_0_r.
  - destruct (i =? 3); [|discriminate]. injection H as <- <-. exists Keep. split; [reflexivity|]. symmetry. apply Z.lor_0_r.
Qed.
Lemma dest_complete i result d rest : (i < 3 /\ exists r, rest = TComma :: r) \/ (i = 3 /\ exists r, rest = TSeparator :: r) ->
  vpfxd_lane i result (write_dest d ++ rest) = Some (Z.lor result (encode_dest i d), rest).
Proof.
  intros R. destruct d; try reflexivity. cbn [write_dest app encode_dest]. rewrite Z.lor_0_r.
  destruct R as [(L & r & ->)|(-> & r & ->)]; cbn [vpfxd_lane]; [|reflexivity]. destruct (Z.ltb_spec i 3); [reflexivity|lia].
Qed.
Definition encode_dests (a b c d : dest) : Z := Z.lor (Z.lor (Z.lor (Z.lor 0 (encode_dest 0 a)) (encode_dest 1 b)) (encode_dest 2 c)) (encode_dest 3 d).
Lemma decode_dests a b c d : 0 <= encode_dests a b c d < 2 ^ 12 /\ map (dest_of (encode_dests a b c d)) idx = [Some a; Some b; Some c; Some d].
Proof. split; [destruct a, b, c, d; split; vm_compute; congruence|]. destruct a, b, c, d; vm_compute; reflexivity. Qed.
Lemma vpfxd_sound ts n r : vpfxd ts = Some (n, TSeparator :: r) ->
  exists a b c d, ts = four write_dest a b c d ++ TSeparator :: r /\ 0 <= n < 2 ^ 12 /\ map (dest_of n) idx = [Some a; Some b; Some c; Some d].
Proof.
  unfold vpfxd. intros H. cbn [lanes Z.eqb Z.add Pos.add Pos.succ] in H.
  destruct (vpfxd_lane 0 0 ts) as [[r0 t0]|] eqn:E0; [|discriminate]. apply dest_sound in E0. destruct E0 as (a & -> & ->).
  destruct t0 as [|[] t0]; try discriminate.
  destruct (vpfxd_lane 1 _ t0) as [[r1 t1]|] eqn:E1; [|discriminate]. apply dest_sound in E1. destruct E1 as (b & -> & ->).
  destruct t1 as [|[] t1]; try discriminate.
  destruct (vpfxd_lane 2 _ t1) as [[r2 t2]|] eqn:E2; [|discriminate]. apply dest_sound in E2. destruct E2 as (c & -> & ->).
  destruct t2 as [|[] t2]; try discriminate.
  destruct (vpfxd_lane 3 _ t2) as [[r3 t3]|] eqn:E3; [|discriminate]. apply dest_sound in E3. destruct E3 as (d & -> & ->).
  injection H as <- ->. exists a, b, c, d. split; [|apply decode_dests].
  unfold four. repeat (rewrite <- ?app_assoc; cbn [app]; try reflexivity).
Qed.
Lemma vpfxd_complete a b c d r : exists n, vpfxd (four write_dest a b c d ++ TSeparator :: r) = Some (n, TSeparator :: r).
Proof.
  exists (encode_dests a b c d). unfold vpfxd, four. repeat (rewrite <- ?app_assoc; cbn [app]).
  cbn [lanes Z.eqb Z.add Pos.add Pos.succ].
  rewrite dest_complete by (left; split; [lia|eauto]). rewrite dest_complete by (left; split; [lia|eauto]). rewrite dest_complete by (left; split; [lia|eauto]).
  rewrite dest_complete by (right; split; [lia|eauto]). reflexivity.
Qed.

(** ** Rotations *)
(** What the loop does with a lane. *)
Definition absorb (i : Z) (x : rot) (r : rlane) : option rot :=
  match r with
  | Zero => Some x
  | Cos => if negb (ro_cos x =? -1) then None else Some (mkRot (ro_sin x) i (ro_neg x) (ro_count x))
  | Sin neg => if (negb neg && ro_neg x) || (neg && negb (ro_neg x) && (0 <? ro_count x)) then None
               else Some (mkRot i (ro_cos x) (ro_neg x || neg) (ro_count x + 1))
  end.
Fixpoint absorb_all (i : Z) (x : rot) (l : list rlane) : option rot :=
  match l with [] => Some x | r :: l => match absorb i x r with Some x => absorb_all (i + 1) x l | None => None end end.
Lemma one_char (s : string) (P : string -> option (rot * list (token * string))) (a b : option (rot * list (token * string))) r :
  match s with "s" => a | "c" => b | _ => None end = Some r -> (s = "s" /\ a = Some r) \/ (s = "c" /\ b = Some r).
Proof.
  intros H. repeat match type of H with match ?x with _ => _ end = _ => destruct x end; try discriminate; auto.
Qed.
Lemma element_sound i x ts x' rest : vrot_element i x ts = Some (x', rest) -> exists r w, ts = w ++ rest /\ rlane_written r w /\ absorb i x r = Some x'.
Proof.
  assert (G : forall neg t0 ts, match ts with
    | (TInt _, text) :: ts => if negb (String.eqb text "0") || neg then None else Some (x, ts)
    | (TIdent "s", _) :: ts => if (negb neg && ro_neg x) || (neg && negb (ro_neg x) && (0 <? ro_count x)) then None else Some (mkRot i (ro_cos x) (ro_neg x || neg) (ro_count x + 1), ts)
    | (TIdent "c", _) :: ts => if neg || negb (ro_cos x =? -1) then None else Some (mkRot (ro_sin x) i (ro_neg x) (ro_count x), ts)
    | _ => None
    end = Some (x', rest) ->
    exists r w, (if neg : bool then (TMinus, t0) :: ts else ts) = w ++ rest /\ rlane_written r w /\ absorb i x r = Some x').
  { intros neg t0 ts0 H. destruct ts0 as [|[t text] ts0]; [discriminate|]. destruct t; try discriminate.
    - apply (one_char n (fun _ => None)) in H. destruct H as [[-> H]|[-> H]].
      + destruct ((negb neg && ro_neg x) || (neg && negb (ro_neg x) && (0 <? ro_count x))) eqn:E; [discriminate|]. injection H as <- <-. exists (Sin neg).
        cbn [absorb]. rewrite E. destruct neg; [exists [(TMinus, t0); (TIdent "s", text)]|exists [(TIdent "s", text)]]; repeat split; constructor.
      + destruct neg; [discriminate|]. cbn [orb] in H. destruct (ro_cos x =? -1) eqn:E; [|discriminate]. injection H as <- <-. exists Cos, [(TIdent "c", text)].
        cbn [absorb]. rewrite E. repeat split; constructor.
    - destruct (String.eqb_spec text "0") as [->|]; cbn [negb orb] in H; [|discriminate]. destruct neg; [discriminate|]. injection H as <- <-. exists Zero, [(TInt z, "0")].
      repeat split; constructor. }
  unfold vrot_element. intros H. destruct ts as [|[t text] ts]; [discriminate|].
  destruct t; try (apply (G false "" ((_, text) :: ts)); exact H). apply (G true text ts). exact H.
Qed.
Lemma element_complete i x r w rest x' : rlane_written r w -> absorb i x r = Some x' -> vrot_element i x (w ++ rest) = Some (x', rest).
Proof.
  intros W A. destruct W; cbn [app]; unfold vrot_element; cbn [absorb] in A.
  - injection A as <-. rewrite String.eqb_refl. reflexivity.
  - cbn [orb]. destruct (negb (ro_cos x =? -1)); [discriminate|]. injection A as <-. reflexivity.
  - destruct ((negb false && ro_neg x) || (false && negb (ro_neg x) && (0 <? ro_count x))); [discriminate|]. injection A as <-. reflexivity.
  - destruct ((negb true && ro_neg x) || (true && negb (ro_neg x) && (0 <? ro_count x))); [discriminate|]. injection A as <-. reflexivity.
Qed.
(** Lanes with a comma in front of each but the first. *)
Definition lead (i : Z) (t : string) (ts : list (token * string)) : list (token * string) := if i =? 0 then ts else (TComma, t) :: ts.
Lemma elements_sound : forall n i x ts x' rest, 0 <= i -> (0 < n)%nat -> vrot_elements n i x ts = Some (x', rest) ->
  exists l t ws, List.length l = n /\ ts = lead i t ws ++ rest /\ rlanes_written l ws /\ absorb_all i x l = Some x'.
Proof.
  induction n as [|n IH]; intros i x ts x' rest I0 N H; [lia|]. cbn [vrot_elements] in H.
  assert (exists t ts1, ts = lead i t ts1 /\ match vrot_element i x ts1 with None => None | Some (x, ts) => vrot_elements n (i + 1) x ts end = Some (x', rest)) as (t & ts1 & -> & H1).
  { unfold lead. destruct (i =? 0); [exists "", ts; auto|]. destruct ts as [|[[] t] ts]; try discriminate. exists t, ts. auto. }
  clear H. destruct (vrot_element i x ts1) as [[x1 ts2]|] eqn:E; [|discriminate]. apply element_sound in E. destruct E as (r & w & -> & W & A).
  destruct n as [|n].
  - cbn [vrot_elements] in H1. injection H1 as <- <-. exists [r], t, w. split; [reflexivity|]. split; [unfold lead; destruct (i =? 0); reflexivity|]. split; [constructor; exact W|]. cbn [absorb_all]. rewrite A. reflexivity.
  - apply IH in H1; [|lia|lia]. destruct H1 as (l & t1 & ws & L & -> & WS & AA). exists (r :: l), t, (w ++ (TComma, t1) :: ws).
    split; [cbn [List.length]; lia|]. split; [|split; [constructor; assumption|cbn [absorb_all]; rewrite A; exact AA]].
    unfold lead. destruct (Z.eqb_spec (i + 1) 0); [lia|]. destruct (i =? 0); rewrite <- ?app_assoc; cbn [app]; rewrite <- ?app_assoc; reflexivity.
Qed.
Lemma elements_complete : forall l ws, rlanes_written l ws -> forall i x x' t rest, 0 <= i -> absorb_all i x l = Some x' ->
  vrot_elements (List.length l) i x (lead i t ws ++ rest) = Some (x', rest).
Proof.
  induction 1 as [r w W|r w t1 l ws W WS IH]; intros i x x' t rest I0 A; cbn [absorb_all] in A; destruct (absorb i x r) as [x1|] eqn:AB; try discriminate.
  - injection A as ->. cbn [List.length vrot_elements]. unfold lead. destruct (i =? 0); cbn [app]; rewrite (element_complete i x r w rest x' W AB); reflexivity.
  - cbn [List.length vrot_elements]. unfold lead. destruct (i =? 0); cbn [app]; rewrite <- app_assoc;
      rewrite (element_complete i x r w _ x1 W AB); rewrite <- (IH (i + 1) x1 x' t1 rest ltac:(lia) A); unfold lead; destruct (Z.eqb_spec (i + 1) 0); try lia; reflexivity.
Qed.

Fixpoint all_lists (n : nat) : list (list rlane) :=
  match n with O => [[]] | S n => flat_map (fun r => map (cons r) (all_lists n)) [Zero; Cos; Sin false; Sin true] end.
Lemma all_lists_all l : In l (all_lists (List.length l)).
Proof.
  induction l as [|r l IH]; [now left|]. cbn [List.length all_lists]. apply in_flat_map. exists r. split; [destruct r as [| |[]]; cbn; auto|]. apply in_map. exact IH.
Qed.
Definition rl_eqb (a b : rlane) : bool := match a, b with Zero, Zero | Cos, Cos => true | Sin a, Sin b => Bool.eqb a b | _, _ => false end.
Fixpoint rls_eqb (a b : list rlane) : bool := match a, b with [], [] => true | x :: a, y :: b => rl_eqb x y && rls_eqb a b | _, _ => false end.
Lemma rl_eqb_eq a b : rl_eqb a b = true <-> a = b.
Proof. destruct a as [| |[]], b as [| |[]]; cbn; split; intros H; try discriminate; try reflexivity; congruence. Qed.
Lemma rls_eqb_eq : forall a b, rls_eqb a b = true <-> a = b.
Proof.
  induction a as [|x a IH]; intros [|y b]; cbn [rls_eqb]; split; intros H; try discriminate; try reflexivity.
  - apply andb_prop in H. destruct H as [H1 H2]. apply rl_eqb_eq in H1. apply IH in H2. congruence.
  - injection H as -> ->. rewrite (proj2 (rl_eqb_eq y y) eq_refl), (proj2 (IH b) eq_refl). reflexivity.
Qed.
Definition outcome (size : Z) (l : list rlane) : option Z :=
  match absorb_all 0 (mkRot (-1) (-1) false 0) l with Some x => vrot_result size x | None => None end.
Definition zeros (l : list rlane) : bool := forallb (rl_eqb Zero) l.
Definition outcome_ok (size : Z) (l : list rlane) : bool :=
  match outcome size l with
  | Some n => (0 <=? n) && (n <? 32) && rls_eqb (rotation_of n (Z.to_nat (size + 1))) l && negb (zeros l)
  | None => zeros l || forallb (fun n => negb (rls_eqb (rotation_of (Z.of_nat n) (Z.to_nat (size + 1))) l)) (seq 0 32)
  end.
Lemma outcomes size l : 0 <= size <= 3 -> List.length l = Z.to_nat (size + 1) -> outcome_ok size l = true.
Proof.
  intros S L. assert (A : forallb (fun s => forallb (outcome_ok s) (all_lists (Z.to_nat (s + 1)))) [0; 1; 2; 3] = true) by (vm_compute; reflexivity).
  rewrite forallb_forall in A. specialize (A size ltac:(cbn; lia)). rewrite forallb_forall in A. apply A. rewrite <- L. apply all_lists_all.
Qed.
Lemma zeros_spec l : zeros l = true <-> Forall (eq Zero) l.
Proof. unfold zeros. rewrite forallb_forall, Forall_forall. split; intros H r I; specialize (H r I); apply rl_eqb_eq; exact H. Qed.

Lemma vrot_sound size ts n rest : 0 <= size <= 3 -> vrot size ts = Some (n, rest) ->
  exists l t1 t2 ws, List.length l = Z.to_nat (size + 1) /\ rlanes_written l ws /\ ts = (TLBrack, t1) :: ws ++ (TRBrack, t2) :: rest /\
    0 <= n < 32 /\ rotation_of n (Z.to_nat (size + 1)) = l /\ ~ Forall (eq Zero) l.
Proof.
  intros S H. unfold vrot in H. destruct ts as [|[[] t1] ts]; try discriminate.
  destruct (vrot_elements _ 0 _ ts) as [[x ts1]|] eqn:E; [|discriminate]. apply elements_sound in E; [|lia|lia]. destruct E as (l & t & ws & L & -> & W & A).
  destruct ts1 as [|[[] t2] ts1]; try discriminate. destruct (vrot_result size x) as [r|] eqn:R; [|discriminate]. injection H as <- <-.
  pose proof (outcomes size l S L) as O. unfold outcome_ok, outcome in O. rewrite A, R in O.
  apply andb_prop in O. destruct O as [O Z0]. apply andb_prop in O. destruct O as [O O3]. apply rls_eqb_eq in O3.
  exists l, t1, t2, ws. split; [exact L|]. split; [exact W|]. split; [reflexivity|]. split; [lia|]. split; [exact O3|].
  intros F. apply zeros_spec in F. rewrite F in Z0. discriminate.
Qed.
Lemma vrot_complete size l ws t1 t2 rest m : 0 <= size <= 3 -> List.length l = Z.to_nat (size + 1) -> rlanes_written l ws ->
  0 <= m < 32 -> rotation_of m (Z.to_nat (size + 1)) = l -> ~ Forall (eq Zero) l ->
  exists n, vrot size ((TLBrack, t1) :: ws ++ (TRBrack, t2) :: rest) = Some (n, rest).
Proof.
  intros S L W M R Z0. pose proof (outcomes size l S L) as O. unfold outcome_ok in O. destruct (outcome size l) as [n|] eqn:E.
  - exists n. unfold outcome in E. destruct (absorb_all 0 _ l) as [x|] eqn:A; [|discriminate].
    pose proof (elements_complete l ws W 0 _ x "" ((TRBrack, t2) :: rest) ltac:(lia) A) as Q. unfold lead in Q. cbn [Z.eqb] in Q.
    unfold vrot. rewrite <- L. rewrite Q. rewrite E. reflexivity.
  - exfalso. apply orb_prop in O. destruct O as [O|O]; [apply zeros_spec in O; contradiction|]. rewrite forallb_forall in O. specialize (O (Z.to_nat m) ltac:(apply in_seq; lia)).
    rewrite Z2Nat.id in O by lia. rewrite R in O. rewrite (proj2 (rls_eqb_eq l l) eq_refl) in O. discriminate.
Qed.

(** ** Constants *)
Lemma float_entry_never values ts : seq_entry [YIdent; YLParen; YFloat; YRParen] (values ++ [WFloat]) ts = None.
Proof.
  destruct ts as [|[] ts]; try reflexivity. cbn [seq_entry has_type negb]. destruct values as [|[] values]; try reflexivity. cbn [app]. destruct (String.eqb s n); [|reflexivity].
  destruct ts as [|[] ts]; try reflexivity. destruct ts as [|[] ts]; try reflexivity. destruct ts as [|[] ts]; try reflexivity. cbn [seq_entry has_type negb]. destruct values; reflexivity.
Qed.
Definition vcst_simple : list entry := firstn 3 vcst_entries ++ skipn 4 vcst_entries.
Lemma vcst_skip ts : vcst ts = seq_parse vcst_simple ts.
Proof.
  unfold vcst. change vcst_entries with (firstn 3 vcst_entries ++ mkEntry 3 [YIdent; YLParen; YFloat; YRParen] [WText "sqrt"; WFloat] :: skipn 4 vcst_entries).
  unfold vcst_simple. induction (firstn 3 vcst_entries) as [|e l IH]; cbn [app seq_parse].
  - cbn [en_types en_values]. rewrite (float_entry_never [WText "sqrt"]). reflexivity.
  - rewrite IH. reflexivity.
Qed.
Lemma vcst_sound ts n rest : vcst ts = Some (n, rest) -> exists w, ts = w ++ rest /\ constant n w.
Proof.
  rewrite vcst_skip. intros H. apply seq_parse_sound in H; [|simples]. destruct H as (e & w & I & R & E & M). exists w. split; [exact E|].
  cbn [vcst_simple vcst_entries firstn skipn app In] in I.
  repeat destruct I as [<-|I]; try contradiction; cbn in R, M; injection M as <-; subst n; constructor.
Qed.
Lemma vcst_complete n w r : constant n w -> vcst (w ++ TSeparator :: r) = Some (n, TSeparator :: r).
Proof. intros C. destruct C; reflexivity. Qed.
Lemma vcst_half rest : vcst (sqrt_half ++ rest) = None.
Proof. reflexivity. Qed.
