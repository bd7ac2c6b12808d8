(** Proofs about the operands of the vector unit. *)

Require Import ZArith Bool List String Ascii Lia.
From Coq Require Import Floats.SpecFloat.
From Verif Require Import Ints ParseModel VfpuModel VfpuSpec.
Import ListNotations.
Local Open Scope string_scope.
Local Open Scope list_scope.
Local Open Scope Z_scope.

(** ** Sequences *)
(** The tokens an entry matches; none if a float number is among them. *)
Definition symbol (y : ttype) : token :=
  match y with
  | YLParen => TLParen | YRParen => TRParen | YLBrack => TLBrack | YRBrack => TRBrack | YDiv => TDiv | YMult => TMult | YColon => TColon | YMinus => TMinus
  | _ => TInvalid
  end.
Fixpoint pattern (types : list ttype) (values : list tvalue) : option (list token) :=
  match types with
  | [] => match values with [] => Some [] | _ => None end
  | YIdent :: types => match values with WText s :: values => option_map (cons (TIdent s)) (pattern types values) | _ => None end
  | YInt :: types => match values with WInt x :: values => option_map (cons (TInt x)) (pattern types values) | _ => None end
  | YFloat :: _ => None
  | y :: types => option_map (cons (symbol y)) (pattern types values)
  end.
Lemma seq_entry_iff : forall types values, ~ In YFloat types -> forall ts rest,
  seq_entry types values ts = Some rest <-> exists w, pattern types values = Some w /\ ts = w ++ rest.
Proof.
  induction types as [|y types IH]; intros values F ts rest; cbn [seq_entry pattern].
  - destruct values; (split; [intros H|intros (w & H & E)]); try discriminate; injection H as <-; [exists []; auto|subst; reflexivity].
  - assert (F' : ~ In YFloat types) by (intros X; apply F; now right).
    assert (K : forall t v ts, seq_entry types v ts = Some rest <-> exists w, option_map (cons t) (pattern types v) = Some w /\ t :: ts = w ++ rest).
    { intros t v ts0. rewrite (IH v F' ts0 rest). split.
      - intros (w & P & ->). exists (t :: w). rewrite P. split; reflexivity.
      - intros (w & P & E). destruct (pattern types v) as [w'|]; [|discriminate]. injection P as <-. injection E as ->. eauto. }
    split.
    + intros H. destruct ts as [|t ts]; [discriminate|]. destruct (has_type y t) eqn:T; cbn [negb] in H; [|discriminate].
      destruct y, t; try discriminate T; try (exact (proj1 (K _ _ _) H)).
      * destruct values as [|[s|x|] values]; try discriminate. destruct (String.eqb_spec s n) as [->|]; [|discriminate]. apply K; exact H.
      * destruct values as [|[s|x|] values]; try discriminate. destruct (Z.eqb_spec x z) as [->|]; [|discriminate]. apply K; exact H.
      * exfalso. apply F. now left.
    + intros (w & P & E).
      assert (forall t v, option_map (cons t) (pattern types v) = Some w -> exists w', pattern types v = Some w' /\ ts = t :: w' ++ rest) as D.
      { intros t v O. destruct (pattern types v) as [w'|]; [|discriminate]. injection O as <-. exists w'. split; [reflexivity|exact E]. }
      destruct y; try (apply D in P; destruct P as (w' & P & ->); cbn [has_type symbol negb]; apply IH; [exact F'|eauto]; fail).
      * destruct values as [|[s|x|] values]; try discriminate. apply D in P. destruct P as (w' & P & ->). cbn [has_type negb]. rewrite String.eqb_refl. apply IH; [exact F'|eauto].
      * destruct values as [|[s|x|] values]; try discriminate. apply D in P. destruct P as (w' & P & ->). cbn [has_type negb]. rewrite Z.eqb_refl. apply IH; [exact F'|eauto].
      * discriminate.
Qed.
Definition simple (e : entry) : Prop := ~ In YFloat (en_types e).
Lemma seq_parse_sound : forall l, Forall simple l -> forall ts n rest, seq_parse l ts = Some (n, rest) ->
  exists e w, In e l /\ en_result e = n /\ ts = w ++ rest /\ pattern (en_types e) (en_values e) = Some w.
Proof.
  intros l S. induction S as [|e l S0 S IH]; intros ts n rest H; cbn [seq_parse] in H; [discriminate|].
  destruct (seq_entry (en_types e) (en_values e) ts) as [r|] eqn:E.
  - injection H as <- <-. apply (seq_entry_iff _ _ S0) in E. destruct E as (w & M & ->). exists e, w. split; [now left|auto].
  - apply IH in H. destruct H as (e' & w & I & H). exists e', w. split; [now right|exact H].
Qed.
Ltac simples := repeat constructor; unfold simple; cbn; intuition discriminate.

(** ** Prefixes of sources *)
Definition const_code (c : const) : Z := match c with K0 => 0 | K1 => 1 | K2 => 2 | Khalf => 3 | K3 => 4 | Kthird => 5 | Kfourth => 6 | Ksixth => 7 end.
Definition lane_code (l : lane) : Z := match l with LX => 0 | LY => 1 | LZ => 2 | LW => 3 end.
Definition encode_source (i : Z) (s : source) : Z :=
  match s with
  | Lane neg abs l => Z.lor (Z.lor (if neg then Z.shiftl 1 (16 + i) else 0) (if abs then Z.shiftl 1 (8 + i) else 0)) (Z.shiftl (lane_code l) (i * 2))
  | Const neg c => Z.lor (Z.lor (if neg then Z.shiftl 1 (16 + i) else 0) (Z.lor (Z.shiftl 1 (12 + i)) (Z.shiftl (Z.land (const_code c) 3) (i * 2))))
                         (if Z.land (const_code c) 4 =? 0 then 0 else Z.shiftl 1 (8 + i))
  end.

Lemma const_sound ts c rest : seq_parse vpfxs_entries ts = Some (c, rest) -> exists k, ts = write_const k ++ rest /\ const_code k = c.
Proof.
  intros H. apply seq_parse_sound in H; [|simples]. destruct H as (e & w & I & R & E & M). cbn [vpfxs_entries In] in I.
  repeat destruct I as [<-|I]; try contradiction; cbn in R, M; injection M as <-; subst c ts;
    [exists K0|exists Khalf|exists Kthird|exists Kfourth|exists Ksixth|exists K1|exists K2|exists K3]; split; reflexivity.
Qed.
Definition no_div (rest : list token) : Prop := match rest with TDiv :: _ => False | _ => True end.
Lemma const_complete k rest : no_div rest -> seq_parse vpfxs_entries (write_const k ++ rest) = Some (const_code k, rest).
Proof. intros N. destruct k; try reflexivity; cbn [write_const app]; destruct rest as [|[] rest]; try reflexivity; contradiction. Qed.

Lemma register_sound s r : vpfx_register s = Some r -> exists l, TIdent s = write_lane l /\ lane_code l = r.
Proof.
  unfold vpfx_register. intros H.
  repeat match type of H with
  | match ?x with _ => _ end = _ => destruct x
  end; try discriminate; injection H as <-; first [exists LX; split; reflexivity|exists LY; split; reflexivity|exists LZ; split; reflexivity|exists LW; split; reflexivity].
Qed.

Lemma lor_zero a : Z.lor a 0 = a.
Proof. apply Z.lor_0_r. Qed.
Ltac lors := rewrite ?Z.lor_assoc, ?lor_zero; try reflexivity.
Lemma lane_sound i result ts r rest : vpfxs_lane i result ts = Some (r, rest) ->
  exists s, ts = write_source s ++ rest /\ r = Z.lor result (encode_source i s).
Proof.
  unfold vpfxs_lane.
  assert (G : forall (neg : bool) result' ts', (result' = Z.lor result (if neg then Z.shiftl 1 (16 + i) else 0)) ->
    (let '(result, abs, ts) := match ts' with TBitOr :: ts => (Z.lor result' (Z.shiftl 1 (8 + i)), true, ts) | _ => (result', false, ts') end in
     match ts with
     | TIdent s :: ts =>
       match vpfx_register s with
       | None => None
       | Some r => let result := Z.lor result (Z.shiftl r (i * 2)) in
         if abs then match ts with TBitOr :: ts => Some (result, ts) | _ => None end else Some (result, ts)
       end
     | _ => if abs then None else
         let result := Z.lor result (Z.shiftl 1 (12 + i)) in
         match seq_parse vpfxs_entries ts with
         | None => None
         | Some (c, ts) => let result := Z.lor result (Z.shiftl (Z.land c 3) (i * 2)) in
           Some (if Z.land c 4 =? 0 then result else Z.lor result (Z.shiftl 1 (8 + i)), ts)
         end
     end) = Some (r, rest) ->
    exists s, (if neg then TMinus :: ts' else ts') = write_source s ++ rest /\ r = Z.lor result (encode_source i s)).
  { intros neg result' ts' -> H. destruct ts' as [|t ts']; [discriminate|].
    assert (C : forall ts1, match seq_parse vpfxs_entries ts1 with
        | None => None
        | Some (c, ts) => let result' := Z.lor (Z.lor (Z.lor result (if neg then Z.shiftl 1 (16 + i) else 0)) (Z.shiftl 1 (12 + i))) (Z.shiftl (Z.land c 3) (i * 2)) in
           Some (if Z.land c 4 =? 0 then result' else Z.lor result' (Z.shiftl 1 (8 + i)), ts)
        end = Some (r, rest) -> exists s, (if neg then TMinus :: ts1 else ts1) = write_source s ++ rest /\ r = Z.lor result (encode_source i s)).
    { intros ts1 H1. destruct (seq_parse vpfxs_entries ts1) as [[c ts2]|] eqn:S; [|discriminate]. apply const_sound in S. destruct S as (k & -> & <-).
      cbv zeta in H1. injection H1 as <- ->. exists (Const neg k). split; [destruct neg; reflexivity|]. cbn [encode_source]. destruct neg, (Z.land (const_code k) 4 =? 0); lors. }
    destruct t; try (apply C; exact H).
    - destruct (vpfx_register n) as [q|] eqn:R; [|discriminate]. apply register_sound in R. destruct R as (l & E & <-). cbv zeta in H. injection H as <- <-.
      exists (Lane neg false l). rewrite E. split; [destruct neg; reflexivity|]. cbn [encode_source]. destruct neg; lors.
    - destruct ts' as [|[] ts']; try discriminate. destruct (vpfx_register n) as [q|] eqn:R; [|discriminate]. apply register_sound in R. destruct R as (l & E & <-).
      cbv zeta in H. destruct ts' as [|[] ts']; try discriminate. injection H as <- <-. exists (Lane neg true l). rewrite E. split; [destruct neg; reflexivity|]. cbn [encode_source]. destruct neg; lors. }
  intros H. destruct ts as [|t ts]; [discriminate|].
  destruct t; try (apply (G false result (_ :: ts)); [symmetry; apply lor_zero|exact H]).
  apply (G true (Z.lor result (Z.shiftl 1 (16 + i))) ts); [reflexivity|exact H].
Qed.
Lemma lane_complete i result s rest : no_div rest -> vpfxs_lane i result (write_source s ++ rest) = Some (Z.lor result (encode_source i s), rest).
Proof.
  intros N. destruct s as [neg abs l|neg k].
  - destruct neg, abs, l; cbn [write_source app write_lane vpfxs_lane vpfx_register encode_source lane_code]; do 2 f_equal; lors.
  - assert (W : forall t ts, write_const k ++ rest = t :: ts -> exists z, t = TInt z) by (intros t ts; destruct k; intros E; injection E as <- _; eauto).
    assert (P := const_complete k rest N). destruct (write_const k ++ rest) as [|t ts] eqn:E; [destruct k; discriminate|].
    destruct (W t ts eq_refl) as (z & ->).
    destruct neg; cbn [write_source app]; rewrite E; unfold vpfxs_lane; rewrite P; cbv zeta; do 2 f_equal; cbn [encode_source]; destruct (Z.land (const_code k) 4 =? 0); lors.
Qed.

(** What the bits mean. *)
Definition sources : list source :=
  flat_map (fun neg => flat_map (fun abs => map (Lane neg abs) [LX; LY; LZ; LW]) [true; false] ++ map (Const neg) [K0; K1; K2; Khalf; K3; Kthird; Kfourth; Ksixth]) [true; false].
Lemma sources_all s : In s sources.
Proof. destruct s as [[] [] []|[] []]; cbn; auto 40. Qed.
Definition lane_mask (i : Z) : Z := Z.lor (Z.shiftl 3 (2 * i)) (Z.lor (Z.shiftl 1 (8 + i)) (Z.lor (Z.shiftl 1 (12 + i)) (Z.shiftl 1 (16 + i)))).
Definition idx : list Z := [0; 1; 2; 3].
Lemma mask_own : forall i s, In i idx -> Z.land (encode_source i s) (lane_mask i) = encode_source i s.
Proof.
  intros i s I. assert (A : forallb (fun i => forallb (fun s => Z.land (encode_source i s) (lane_mask i) =? encode_source i s) sources) idx = true) by (vm_compute; reflexivity).
  rewrite forallb_forall in A. specialize (A i I). rewrite forallb_forall in A. apply Z.eqb_eq, A, sources_all.
Qed.
Lemma mask_other : forall i j s, In i idx -> In j idx -> i <> j -> Z.land (encode_source j s) (lane_mask i) = 0.
Proof.
  intros i j s I J N.
  assert (A : forallb (fun i => forallb (fun j => forallb (fun s => (i =? j) || (Z.land (encode_source j s) (lane_mask i) =? 0)) sources) idx) idx = true) by (vm_compute; reflexivity).
  rewrite forallb_forall in A. specialize (A i I). rewrite forallb_forall in A. specialize (A j J). rewrite forallb_forall in A. specialize (A s (sources_all s)).
  apply orb_prop in A. destruct A as [A|A]; apply Z.eqb_eq in A; [contradiction|exact A].
Qed.
Lemma bit_testbit n k : 0 <= k -> bit n k = Z.testbit n k.
Proof. intros K. unfold bit. rewrite Z.testbit_odd, Z.shiftr_div_pow2 by exact K. reflexivity. Qed.
Lemma bit_mask n m k : 0 <= k -> Z.testbit m k = true -> bit (Z.land n m) k = bit n k.
Proof. intros K M. rewrite !bit_testbit, Z.land_spec, M, andb_true_r by exact K. reflexivity. Qed.
Lemma field_bits n k : 0 <= k -> field2 n k = Z.b2z (bit n k) + 2 * Z.b2z (bit n (k + 1)).
Proof.
  intros K. unfold field2, bit. rewrite Z.pow_add_r, <- Z.div_div by lia. change (2 ^ 1) with 2. set (q := n / 2 ^ k). clearbody q.
  rewrite <- !Z.bit0_odd, !Z.bit0_mod. Z.to_euclidean_division_equations. lia.
Qed.
Lemma field_mask n m k : 0 <= k -> Z.testbit m k = true -> Z.testbit m (k + 1) = true -> field2 (Z.land n m) k = field2 n k.
Proof. intros K A B. rewrite !field_bits, !bit_mask by (assumption || lia). reflexivity. Qed.
Lemma source_mask n i : In i idx -> source_of (Z.land n (lane_mask i)) i = source_of n i.
Proof.
  intros I. assert (B : 0 <= i) by (cbn in I; intuition lia).
  assert (A : forallb (fun i => Z.testbit (lane_mask i) (2 * i) && Z.testbit (lane_mask i) (2 * i + 1) && Z.testbit (lane_mask i) (8 + i) && Z.testbit (lane_mask i) (12 + i) && Z.testbit (lane_mask i) (16 + i)) idx = true) by (vm_compute; reflexivity).
  rewrite forallb_forall in A. specialize (A i I). apply andb_prop in A. destruct A as [A A5]. apply andb_prop in A. destruct A as [A A4]. apply andb_prop in A. destruct A as [A A3]. apply andb_prop in A. destruct A as [A1 A2].
  unfold source_of. rewrite field_mask, !bit_mask by (assumption || lia). reflexivity.
Qed.
Lemma source_back i s : In i idx -> source_of (encode_source i s) i = s.
Proof.
  intros I. assert (A : forall s, forallb (fun i => if match s, source_of (encode_source i s) i with
      | Lane a b l, Lane a' b' l' => Bool.eqb a a' && Bool.eqb b b' && (lane_code l =? lane_code l')
      | Const a c, Const a' c' => Bool.eqb a a' && (const_code c =? const_code c') | _, _ => false end then true else false) idx = true)
    by (intros [[] [] []|[] []]; vm_compute; reflexivity).
  specialize (A s). rewrite forallb_forall in A. specialize (A i I). destruct s as [a b l|a c], (source_of _ i) as [a' b' l'|a' c']; try discriminate A.
  - destruct (Bool.eqb a a' && Bool.eqb b b' && (lane_code l =? lane_code l')) eqn:E; [|discriminate]. apply andb_prop in E. destruct E as [E E3]. apply andb_prop in E. destruct E as [E1 E2].
    apply eqb_prop in E1, E2. subst. destruct l, l'; try discriminate E3; reflexivity.
  - destruct (Bool.eqb a a' && (const_code c =? const_code c')) eqn:E; [|discriminate]. apply andb_prop in E. destruct E as [E1 E2].
    apply eqb_prop in E1. subst. destruct c, c'; try discriminate E2; reflexivity.
Qed.
Definition encode4 (a b c d : source) : Z := Z.lor (Z.lor (Z.lor (Z.lor 0 (encode_source 0 a)) (encode_source 1 b)) (encode_source 2 c)) (encode_source 3 d).
Lemma decode4 a b c d : map (source_of (encode4 a b c d)) idx = [a; b; c; d].
Proof.
  assert (K : forall i, In i idx -> source_of (encode4 a b c d) i = source_of (encode4 a b c d) i) by reflexivity.
  assert (L : forall i s, In i idx -> Z.land (encode4 a b c d) (lane_mask i) = encode_source i s -> source_of (encode4 a b c d) i = s).
  { intros i s I E. rewrite <- (source_mask _ i I), E. apply source_back, I. }
  assert (D : forall i, Z.land (encode4 a b c d) (lane_mask i) = Z.lor (Z.lor (Z.lor (Z.land (encode_source 0 a) (lane_mask i)) (Z.land (encode_source 1 b) (lane_mask i))) (Z.land (encode_source 2 c) (lane_mask i))) (Z.land (encode_source 3 d) (lane_mask i))).
  { intros i. unfold encode4. rewrite !Z.land_lor_distr_l, Z.land_0_l, Z.lor_0_l. reflexivity. }
  assert (I0 : In 0 idx) by (cbn; auto). assert (I1 : In 1 idx) by (cbn; auto). assert (I2 : In 2 idx) by (cbn; auto). assert (I3 : In 3 idx) by (cbn; auto).
  cbn [map idx]. f_equal; [|f_equal; [|f_equal; [|f_equal]]]; apply L; try assumption; rewrite D.
  - rewrite (mask_own 0), (mask_other 0 1), (mask_other 0 2), (mask_other 0 3) by (assumption || lia). rewrite !Z.lor_0_r. reflexivity.
  - rewrite (mask_own 1), (mask_other 1 0), (mask_other 1 2), (mask_other 1 3) by (assumption || lia). rewrite !Z.lor_0_r. apply Z.lor_0_l.
  - rewrite (mask_own 2), (mask_other 2 0), (mask_other 2 1), (mask_other 2 3) by (assumption || lia). rewrite !Z.lor_0_r. apply Z.lor_0_l.
  - rewrite (mask_own 3), (mask_other 3 0), (mask_other 3 1), (mask_other 3 2) by (assumption || lia). reflexivity.
Qed.
Lemma encode_small i s : In i idx -> 0 <= encode_source i s < 2 ^ 20.
Proof.
  intros I. assert (A : forallb (fun i => forallb (fun s => (0 <=? encode_source i s) && (encode_source i s <? 2 ^ 20)) sources) idx = true) by (vm_compute; reflexivity).
  rewrite forallb_forall in A. specialize (A i I). rewrite forallb_forall in A. specialize (A s (sources_all s)). lia.
Qed.
Lemma lor_small a b n : 0 <= n -> 0 <= a < 2 ^ n -> 0 <= b < 2 ^ n -> 0 <= Z.lor a b < 2 ^ n.
Proof.
  intros N A B. split; [apply Z.lor_nonneg; lia|]. destruct (Z.eq_dec (Z.lor a b) 0) as [->|E]; [lia|].
  assert (0 <= Z.lor a b) by (apply Z.lor_nonneg; lia). apply Z.log2_lt_pow2; [lia|]. rewrite Z.log2_lor by lia.
  apply Z.max_lub_lt; (destruct (Z.eq_dec a 0) as [->|]; destruct (Z.eq_dec b 0) as [->|]; try (exfalso; apply E; reflexivity));
    try (apply Z.log2_lt_pow2; lia); cbn [Z.log2].
  all: try (destruct (Z.eq_dec n 0) as [->|]; [change (2 ^ 0) with 1 in *; lia|lia]).
Qed.
Lemma encode4_small a b c d : 0 <= encode4 a b c d < 2 ^ 20.
Proof. unfold encode4. repeat (apply lor_small; [lia| |apply encode_small; cbn; auto]). lia. Qed.

Lemma vpfxs_iff ts n rest : (exists t r, rest = t :: r /\ t <> TDiv) ->
  vpfxs ts = Some (n, rest) <-> exists a b c d, ts = four write_source a b c d ++ rest /\ 0 <= n < 2 ^ 20 /\ map (source_of n) idx = [a; b; c; d] /\ n = encode4 a b c d.
Proof.
  intros R. unfold vpfxs. split.
  - intros H. cbn [lanes Z.eqb Z.add Pos.add Pos.succ] in H.
    destruct (vpfxs_lane 0 0 ts) as [[r0 t0]|] eqn:E0; [|discriminate]. apply lane_sound in E0. destruct E0 as (a & -> & ->).
    destruct t0 as [|[] t0]; try discriminate.
    destruct (vpfxs_lane 1 _ t0) as [[r1 t1]|] eqn:E1; [|discriminate]. apply lane_sound in E1. destruct E1 as (b & -> & ->).
    destruct t1 as [|[] t1]; try discriminate.
    destruct (vpfxs_lane 2 _ t1) as [[r2 t2]|] eqn:E2; [|discriminate]. apply lane_sound in E2. destruct E2 as (c & -> & ->).
    destruct t2 as [|[] t2]; try discriminate.
    destruct (vpfxs_lane 3 _ t2) as [[r3 t3]|] eqn:E3; [|discriminate]. apply lane_sound in E3. destruct E3 as (d & -> & ->).
    injection H as <- <-. exists a, b, c, d. split; [|split; [apply encode4_small|split; [apply decode4|reflexivity]]].
    unfold four. repeat (rewrite <- ?app_assoc; cbn [app]; try reflexivity).
  - intros (a & b & c & d & -> & _ & _ & ->). unfold four. repeat (rewrite <- ?app_assoc; cbn [app]).
    assert (ND : no_div rest) by (destruct R as (t & r & -> & N); destruct t; try exact I; contradiction).
    cbn [lanes Z.eqb Z.add Pos.add Pos.succ]. rewrite lane_complete by exact I. rewrite lane_complete by exact I. rewrite lane_complete by exact I. rewrite lane_complete by exact ND. reflexivity.
Qed.
