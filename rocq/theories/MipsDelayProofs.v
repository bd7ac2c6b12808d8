(** Load delays: proofs. *)

Require Import ZArith Lia Bool List String Ascii.
Require Import ZifyBool.
Require Import Verif.Ints Verif.IntsLemmas Verif.BitFields Verif.Res Verif.MipsTable Verif.MipsModel Verif.MipsSpec
  Verif.MipsProofs Verif.MipsWordProofs Verif.MipsMacroModel Verif.MipsDelayModel Verif.MipsDelaySpec.
Import ListNotations.
Local Open Scope string_scope.
Local Open Scope list_scope.
Local Open Scope Z_scope.

(** ** What a row of the table says *)

Definition free_bits (parts : list (slice * source)) (pos len : nat) : bool :=
  forallb (fun k => negb (existsb (fun x => covers (Z.of_nat k) (fst x)) parts)) (seq pos len).
(** The field at [pos] holds the register in [x] only. *)
Definition register_field (o : mips_opcode) (base : Z) (parts : list (slice * source)) (pos : nat) (x : slot) : bool :=
  match final o (template (m_encoding o)) x with
  | Some y => field_in (mkSlice (Z.of_nat pos) 5 0, FromSlot y) parts &&
              (bits base (Z.of_nat pos) 5 =? 0) && (slot_bound o x =? 32) &&
              forallb (fun k => Nat.leb (List.length (filter (fun x => covers (Z.of_nat k) (fst x)) parts)) 1) (seq pos 5)
  | None => false
  end.
Definition zero_field (base : Z) (parts : list (slice * source)) (pos : nat) : bool :=
  free_bits parts pos 5 && (bits base (Z.of_nat pos) 5 =? 0).
Definition delay_ok (o : mips_opcode) (x : string * option Z * option Z) : bool :=
  let '(name, sz, cc) := x in
  let base := row_base o sz cc in
  let parts := sym_parts o (template (m_encoding o)) in
  let op := bits base 26 6 in
  let fn := bits base 0 6 in
  let rs := bits base 21 5 in
  negb (mem name ["ins"; "wsbh"; "wsbw"; "seb"; "bitrev"; "seh"]) && negb (mem (stem name) ["vcmovt"; "vcmovf"]) &&
  free_bits parts 26 6 &&
  (if op =? 0 then free_bits parts 0 6 else true) &&
  (if uses_rs op fn then zero_field base parts 21 || register_field o base parts 21 grs else true) &&
  (if is op [0x10; 0x11; 0x12; 0x13] then (16 <=? rs) || free_bits parts 21 5 else true) &&
  (if uses_rt op fn rs then zero_field base parts 16 || (register_field o base parts 16 grt && negb (mhas o MO_IGNORERTD)) else true) &&
  (if is_load op then register_field o base parts 16 grt && mhas o MO_DELAYRT else true).
Lemma delay_rows : forallb (fun o => if row_available PSX o then forallb (delay_ok o) (expansions (m_name o)) else true) MipsOpcodes = true.
Proof. vm_compute. reflexivity. Qed.

(** ** From the row to the word *)

Lemma bits_ext a b pos len : 0 <= pos -> 0 <= len -> (forall k, pos <= k < pos + len -> Z.testbit a k = Z.testbit b k) ->
  bits a pos len = bits b pos len.
Proof.
  intros Hp Hl H. apply Z.bits_inj'. intros k Hk. rewrite !bits_testbit by lia.
  destruct (Z.ltb_spec k len); [|reflexivity]. cbn [andb]. apply H. lia.
Qed.
Lemma not_covered k (l : list (slice * source)) i pv sv : existsb (fun x => covers k (fst x)) l = false ->
  existsb (field_bit k) (map (valued i pv sv) l) = false.
Proof.
  induction l as [|[f x] l IH]; [reflexivity|]. cbn [existsb map fst]. intros H. apply orb_false_iff in H. destruct H as [H1 H2].
  rewrite (IH H2), orb_false_r. unfold field_bit, valued. cbn [fst]. unfold covers in H1. rewrite H1. reflexivity.
Qed.
Lemma free_field base w parts i pv sv pos len : adds base w (map (valued i pv sv) parts) -> free_bits parts pos len = true ->
  (pos + len <= 32)%nat -> bits w (Z.of_nat pos) (Z.of_nat len) = bits base (Z.of_nat pos) (Z.of_nat len).
Proof.
  intros A F B. apply bits_ext; try lia. intros k Hk. rewrite (A k) by lia.
  unfold free_bits in F. rewrite forallb_forall in F. specialize (F (Z.to_nat k)). rewrite in_seq in F. specialize (F ltac:(lia)).
  rewrite Z2Nat.id in F by lia. apply negb_true_iff in F. rewrite (not_covered _ _ _ _ _ F). apply orb_false_r.
Qed.
Lemma zero_field_spec base w parts i pv sv pos : adds base w (map (valued i pv sv) parts) -> zero_field base parts pos = true ->
  (pos + 5 <= 32)%nat -> bits w (Z.of_nat pos) 5 = 0.
Proof.
  intros A F B. unfold zero_field in F. apply andb_true_iff in F. destruct F as [F1 F2].
  pose proof (free_field base w parts i pv sv pos 5 A F1 B) as E. change (Z.of_nat 5) with 5 in E. lia.
Qed.
Lemma register_field_spec o base w i i' pv sv pos x :
  adds base w (map (valued i' pv sv) (sym_parts o (template (m_encoding o)))) ->
  (forall x, i_regs i x = final_val i' (final o (template (m_encoding o)) x)) ->
  (forall x y, final o (template (m_encoding o)) x = Some y -> 0 <= i_regs i' y < slot_bound o x) ->
  register_field o base (sym_parts o (template (m_encoding o))) pos x = true -> (pos + 5 <= 32)%nat ->
  bits w (Z.of_nat pos) 5 = i_regs i x /\ 0 <= i_regs i x < 32.
Proof.
  intros A RV NN F B. unfold register_field in F. rewrite RV. pose proof (NN x) as N.
  destruct (final o (template (m_encoding o)) x) as [y|]; [|discriminate F]. specialize (N y eq_refl). cbn [final_val].
  rewrite !andb_true_iff in F. destruct F as [[[F1 F2] F3] F4]. split; [|lia].
  apply Z.bits_inj'. intros k Hk. rewrite bits_testbit by lia. destruct (Z.ltb_spec k 5).
  2:{ cbn [andb]. symmetry. apply (testbit_small _ 5); lia. }
  cbn [andb]. rewrite (A (Z.of_nat pos + k)) by lia.
  assert (Z0 : Z.testbit base (Z.of_nat pos + k) = false).
  { pose proof (bits_testbit base (Z.of_nat pos) 5 k ltac:(lia) ltac:(lia) Hk) as T. replace (bits base (Z.of_nat pos) 5) with 0 in T by lia.
    rewrite Z.bits_0 in T. destruct (Z.ltb_spec k 5); [|lia]. cbn [andb] in T. congruence. }
  rewrite Z0. cbn [orb]. apply field_in_spec in F1.
  rewrite (unique_bit (Z.of_nat pos + k) _ (valued i' pv sv (mkSlice (Z.of_nat pos) 5 0, FromSlot y))).
  - unfold field_bit, valued. cbn [fst snd f_pos f_len f_skip source_val].
    replace (Z.of_nat pos <=? Z.of_nat pos + k) with true by lia.
    replace (Z.of_nat pos + k <? Z.of_nat pos + 5) with true by lia. cbn [andb]. f_equal. lia.
  - rewrite filter_map_len. rewrite forallb_forall in F4. specialize (F4 (Z.to_nat (Z.of_nat pos + k))). rewrite in_seq in F4.
    specialize (F4 ltac:(lia)). rewrite Z2Nat.id in F4 by lia. apply Nat.leb_le in F4. exact F4.
  - apply in_map, F1.
  - unfold covers, valued. cbn [fst f_pos f_len]. lia.
Qed.

(** What the pending load is compared with covers what the word reads, and the loads are marked. *)
Lemma psx_word o name ps i pc pv sv w :
  In o MipsOpcodes -> parse_row PSX name ps o = Some i ->
  validate_primary o pc i = ROk pv -> validate_secondary i pv = ROk sv ->
  (if mhas o MO_VFPU then encodeVfpu o (i_regs i) (i_ptype i) pv (i_vsize i) (i_vcond i)
   else encodeNormal o (i_regs i) (i_ptype i) pv (i_stype i) sv) = ROk w ->
  (forall r, r <> 0 -> word_reads w r -> delayed_operand o (i_regs i) r = true) /\
  (is_load (op_of w) = true -> mhas o MO_DELAYRT = true /\ i_regs i grt = rt_of w).
Proof.
  intros Ho PR VP VS EN.
  assert (AV : row_available PSX o = true) by (unfold parse_row in PR; destruct (row_available PSX o); [reflexivity|discriminate]).
  pose proof delay_rows as DR. rewrite forallb_forall in DR. specialize (DR o Ho). rewrite AV in DR. rewrite forallb_forall in DR.
  assert (IR : irregular PSX name ps = false).
  { unfold parse_row in PR. rewrite AV in PR. destruct (decodeOpcode (m_name o) name fresh_inst) as [j|] eqn:D; [|discriminate].
    apply decode_expansions in D. destruct D as (sz & cc & IN & _). specialize (DR _ IN). unfold delay_ok in DR. cbv zeta in DR.
    rewrite !andb_true_iff in DR. destruct DR as [[[[[[[D1 D2] _] _] _] _] _] _]. unfold irregular. cbn [arch_eqb andb].
    apply negb_true_iff in D1, D2. rewrite D2, !orb_false_r. unfold mem in D1 |- *. cbn [existsb] in D1 |- *.
    rewrite !orb_false_iff in D1. destruct D1 as (E1 & E2 & E3 & E4 & E5 & E6 & _). rewrite E1, E2, E3, E4, E5, E6. reflexivity. }
  destruct (row_word PSX o name ps i pc pv sv w Ho PR IR VP VS EN) as [_ (sz & cc & i' & IN & RV & NN & W & A)].
  specialize (DR _ IN). unfold delay_ok in DR. cbv zeta in DR. rewrite !andb_true_iff in DR.
  destruct DR as [[[[[[[_ _] D3] D4] D5] D6] D7] D8].
  set (base := row_base o sz cc) in *. set (parts := sym_parts o (template (m_encoding o))) in *.
  assert (OP : op_of w = bits base 26 6) by (apply (free_field base w parts i' pv sv 26 6 A D3); lia).
  assert (FN : op_of w = 0 -> fn_of w = bits base 0 6).
  { intros Z0. rewrite OP in Z0. rewrite Z0 in D4. cbn [Z.eqb] in D4. apply (free_field base w parts i' pv sv 0 6 A D4). lia. }
  rewrite <- OP in *.
  assert (URS : uses_rs (op_of w) (fn_of w) = uses_rs (op_of w) (bits base 0 6)).
  { destruct (Z.eq_dec (op_of w) 0) as [E|E]; [rewrite (FN E); reflexivity|]. unfold uses_rs. replace (op_of w =? 0) with false by lia. reflexivity. }
  assert (URT : uses_rt (op_of w) (fn_of w) (rs_of w) = true -> uses_rt (op_of w) (bits base 0 6) (bits base 21 5) = true).
  { unfold uses_rt. destruct (Z.eqb_spec (op_of w) 0) as [E|E]; [rewrite (FN E); exact (fun x => x)|].
    destruct (is (op_of w) [0x10; 0x11; 0x12; 0x13]); [|exact (fun x => x)]. apply orb_true_iff in D6. destruct D6 as [D6|D6].
    - intros X. exfalso.
      (* bit 25 is set *)
      assert (B : Z.testbit (rs_of w) 4 = true).
      { unfold rs_of. rewrite bits_testbit by lia. cbn [andb Z.ltb Z.compare]. change (Z.testbit w 25 = true). rewrite (A 25) by lia.
        pose proof (bits_testbit base 21 5 4 ltac:(lia) ltac:(lia) ltac:(lia)) as T. change (4 <? 5) with true in T. cbn [andb] in T.
        change (21 + 4) with 25 in T. rewrite <- T. rewrite (proj2 (Z.testbit_true _ 4 ltac:(lia))); [reflexivity|].
        pose proof (bits_range base 21 5 ltac:(lia)). change (2 ^ 5) with 32 in *. change (2 ^ 4) with 16.
        Z.div_mod_to_equations; lia. }
      unfold is in X. cbn [existsb] in X. rewrite !orb_true_iff in X. destruct X as [X|[X|X]]; [| |discriminate X]; apply Z.eqb_eq in X; rewrite X in B; discriminate B.
    - assert (RS : rs_of w = bits base 21 5) by (apply (free_field base w parts i' pv sv 21 5 A D6); lia). rewrite RS. exact (fun x => x). }
  split.
  - intros r R0 [[U E]|[U E]].
    + rewrite URS in U. rewrite U in D5. apply orb_true_iff in D5. destruct D5 as [D5|D5].
      * pose proof (zero_field_spec base w parts i' pv sv 21 A D5 ltac:(lia)) as Z0. unfold rs_of in E. change (Z.of_nat 21) with 21 in Z0. lia.
      * destruct (register_field_spec o base w i i' pv sv 21 grs A RV NN D5 ltac:(lia)) as [F G]. change (Z.of_nat 21) with 21 in F.
        unfold rs_of in E. unfold delayed_operand. replace (i_regs i grs =? -1) with false by lia. replace (i_regs i grs =? r) with true by lia.
        cbn [negb andb]. rewrite orb_true_r. reflexivity.
    + apply URT in U. rewrite U in D7. apply orb_true_iff in D7. destruct D7 as [D7|D7].
      * pose proof (zero_field_spec base w parts i' pv sv 16 A D7 ltac:(lia)) as Z0. unfold rt_of in E. change (Z.of_nat 16) with 16 in Z0. lia.
      * apply andb_true_iff in D7. destruct D7 as [D7 D9].
        destruct (register_field_spec o base w i i' pv sv 16 grt A RV NN D7 ltac:(lia)) as [F G]. change (Z.of_nat 16) with 16 in F.
        unfold rt_of in E. unfold delayed_operand. replace (i_regs i grt =? -1) with false by lia. replace (i_regs i grt =? r) with true by lia.
        rewrite D9. cbn [negb andb]. rewrite orb_true_r. reflexivity.
  - intros L. rewrite L in D8. apply andb_true_iff in D8. destruct D8 as [D8 D9]. split; [exact D9|].
    destruct (register_field_spec o base w i i' pv sv 16 grt A RV NN D8 ltac:(lia)) as [F G]. symmetry. exact F.
Qed.

(** ** One instruction *)

(** The pending load of the state is at least the load in the last word. *)
Definition pending (s : mips_state) (w : Z) : Prop :=
  is_load (op_of w) = true -> rt_of w <> 0 -> ms_delay s = true /\ ms_delay_reg s = rt_of w.

Lemma psx_step s ignore pc name ps x : mips_assemble s ignore pc name ps = ROk x -> ms_arch s = PSX ->
  exists w, x_words x = (if ms_fix s && x_warn x then [0; w] else [w]) /\
  ms_arch (x_state x) = PSX /\ ms_fix (x_state x) = ms_fix s /\ pending (x_state x) w /\
  (ignore = false -> forall w0, pending s w0 -> hazard w0 w -> x_warn x = true).
Proof.
  intros E AR. unfold mips_assemble in E. rewrite AR in E. destruct (mips_parse PSX name ps) as [[o i]|] eqn:P; [|discriminate].
  apply parse_rows_in in P. destruct P as [Ho PR].
  apply rbind_ok in E. destruct E as (v & EV & E). apply rbind_ok in E. destruct E as (ws & EW & E). injection E as <-.
  unfold mips_validate in EV. destruct (negb (Z.rem pc 4 =? 0)); [discriminate|].
  apply rbind_ok in EV. destruct EV as (pv & VP & EV). apply rbind_ok in EV. destruct EV as (sv & VS & EV).
  cbv zeta in EV. rewrite AR in EV. cbn [hasLoadDelay] in EV.
  destruct (mhas o MO_NODELAYSLOT && ms_slot s && negb ignore); [discriminate|]. injection EV as <-.
  unfold mips_encode in EW. cbn [v_pval v_sval v_nop] in EW. apply rbind_ok in EW. destruct EW as (w & EW & EQ). injection EQ as <-.
  destruct (psx_word o name ps i pc pv sv w Ho PR VP VS EW) as [R L].
  exists w. cbn [x_words x_warn x_state v_warn v_state ms_arch ms_fix].
  split; [cbn [andb]; reflexivity|]. split; [reflexivity|]. split; [reflexivity|]. split.
  - intros L1 _. destruct (L L1) as [L2 L3]. cbn [ms_delay ms_delay_reg]. auto.
  - intros -> w0 PE (r & H1 & H2 & H3 & H4). subst r. destruct (PE H1 H3) as [P1 P2]. rewrite P1, P2. cbn [andb negb].
    apply R; assumption.
Qed.

(** ** A sequence *)

Lemma adjacent_cons {A} (x y z : A) l : adjacent x y (z :: l) -> (z = x /\ exists r, l = y :: r) \/ adjacent x y l.
Proof.
  intros (l1 & l2 & E). destruct l1 as [|a l1]; cbn [app] in E; injection E as -> ->; [left; split; [reflexivity|exists l2; reflexivity]|].
  right. exists l1, l2. reflexivity.
Qed.
Lemma no_load_zero : is_load (op_of 0) = false.
Proof. reflexivity. Qed.
Lemma no_read_zero r : r <> 0 -> ~ word_reads 0 r.
Proof. intros H [[_ E]|[_ E]]; vm_compute in E; congruence. Qed.

Lemma trace_fixed ls : forall s pc outs w0, mips_trace s pc ls = ROk outs -> ms_arch s = PSX -> ms_fix s = true ->
  Forall (fun l => fst l = false) ls -> pending s w0 ->
  forall w1 w2, adjacent w1 w2 (w0 :: flat_map x_words outs) -> ~ hazard w1 w2.
Proof.
  induction ls as [|[g [name ps]] ls IH]; intros s pc outs w0 E AR FX IG PE w1 w2 AD HZ.
  - injection E as <-. destruct AD as (l1 & l2 & E). cbn [flat_map] in E.
    destruct l1 as [|? [|]]; discriminate E.
  - cbn [mips_trace] in E. apply rbind_ok in E. destruct E as (x & E1 & E). apply rbind_ok in E. destruct E as (y & E2 & E). injection E as <-.
    inversion IG as [|? ? G IG']; subst. cbn [fst] in G. subst g.
    destruct (psx_step _ _ _ _ _ _ E1 AR) as (w & WS & AR' & FX' & PE' & WN). cbn [flat_map] in AD. rewrite WS, FX in AD.
    rewrite FX in FX'. specialize (WN eq_refl w0 PE). cbn [andb] in AD.
    destruct (x_warn x) eqn:XW; cbn [app] in AD.
    + apply adjacent_cons in AD. destruct AD as [[<- (r & AD)]|AD].
      { injection AD as <- _. destruct HZ as (r' & _ & _ & R0 & HZ). exact (no_read_zero _ R0 HZ). }
      apply adjacent_cons in AD. destruct AD as [[<- _]|AD].
      { destruct HZ as (r' & HZ & _). rewrite no_load_zero in HZ. discriminate HZ. }
      exact (IH _ _ _ w E2 AR' FX' IG' PE' w1 w2 AD HZ).
    + apply adjacent_cons in AD. destruct AD as [[<- (r & AD)]|AD].
      { injection AD as <- _. specialize (WN HZ). discriminate WN. }
      exact (IH _ _ _ w E2 AR' FX' IG' PE' w1 w2 AD HZ).
Qed.

Lemma trace_warned ls : forall s pc outs, mips_trace s pc ls = ROk outs -> ms_arch s = PSX -> ms_fix s = false ->
  Forall (fun l => fst l = false) ls ->
  Forall (fun x => List.length (x_words x) = 1%nat) outs /\
  (forall x y, adjacent x y outs -> forall w1 w2, x_words x = [w1] -> x_words y = [w2] -> hazard w1 w2 -> x_warn y = true) /\
  (forall x l w0 w1, outs = x :: l -> pending s w0 -> x_words x = [w1] -> hazard w0 w1 -> x_warn x = true).
Proof.
  induction ls as [|[g [name ps]] ls IH]; intros s pc outs E AR FX IG.
  - injection E as <-. split; [constructor|]. split; [|discriminate]. intros x y (l1 & l2 & E). destruct l1; discriminate E.
  - cbn [mips_trace] in E. apply rbind_ok in E. destruct E as (x & E1 & E). apply rbind_ok in E. destruct E as (y & E2 & E). injection E as <-.
    inversion IG as [|? ? G IG']; subst. cbn [fst] in G. subst g.
    destruct (psx_step _ _ _ _ _ _ E1 AR) as (w & WS & AR' & FX' & PE' & WN). rewrite FX in WS, FX'. cbn [andb] in WS.
    destruct (IH _ _ _ E2 AR' FX' IG') as (I1 & I2 & I3). split; [constructor; [rewrite WS; reflexivity|exact I1]|]. split.
    + intros a b AD w1 w2 A1 B1 HZ. apply adjacent_cons in AD. destruct AD as [[<- (r & ->)]|AD]; [|exact (I2 a b AD w1 w2 A1 B1 HZ)].
      rewrite WS in A1. injection A1 as <-. exact (I3 b r w w2 eq_refl PE' B1 HZ).
    + intros a l w0 w1 EQ PE A1 HZ. injection EQ as <- <-. rewrite WS in A1. injection A1 as <-. exact (WN eq_refl w0 PE HZ).
Qed.

(** Which instructions got a nop: exactly the ones a warning was given for. *)
Lemma trace_nops ls : forall s pc outs, mips_trace s pc ls = ROk outs -> ms_arch s = PSX ->
  Forall (fun x => exists w, x_words x = (if ms_fix s && x_warn x then [0; w] else [w])) outs.
Proof.
  induction ls as [|[g [name ps]] ls IH]; intros s pc outs E AR; [injection E as <-; constructor|].
  cbn [mips_trace] in E. apply rbind_ok in E. destruct E as (x & E1 & E). apply rbind_ok in E. destruct E as (y & E2 & E). injection E as <-.
  destruct (psx_step _ _ _ _ _ _ E1 AR) as (w & WS & AR' & FX' & _). constructor; [exists w; exact WS|].
  rewrite <- FX'. exact (IH _ _ _ E2 AR').
Qed.

(** ** Programs *)

Lemma parse_ignore depth src : forall ls, parse_source depth PSX false src = ROk ls ->
  ~ In ResetDelay src -> Forall (fun l => fst l = false) ls.
Proof.
  induction src as [|[name ps| |] src IH]; intros ls E N; cbn [parse_source] in E.
  - injection E as <-. constructor.
  - apply rbind_ok in E. destruct E as (x & _ & E). apply rbind_ok in E. destruct E as (y & E2 & E). injection E as <-.
    apply Forall_app. split; [apply Forall_forall; intros l H; apply in_map_iff in H; destruct H as (m & <- & _); reflexivity|].
    apply IH; [exact E2|]. intros H. apply N. right. exact H.
  - exfalso. apply N. left. reflexivity.
  - apply IH; [exact E|]. intros H. apply N. right. exact H.
Qed.
Lemma fixes_in src : In FixLoadDelay src -> fixes src = true.
Proof. intros H. unfold fixes. apply existsb_exists. exists FixLoadDelay. auto. Qed.
Lemma fixes_not_in src : ~ In FixLoadDelay src -> fixes src = false.
Proof.
  intros H. unfold fixes. destruct (existsb _ src) eqn:E; [|reflexivity]. apply existsb_exists in E. destruct E as ([| |] & E1 & E2); try discriminate.
  contradiction.
Qed.

Lemma program_fixed depth pc src outs : psx_program depth pc src = ROk outs -> In FixLoadDelay src -> ~ In ResetDelay src ->
  forall w1 w2, adjacent w1 w2 (flat_map x_words outs) -> ~ hazard w1 w2.
Proof.
  intros E F N w1 w2 (l1 & l2 & AD). unfold psx_program in E. apply rbind_ok in E. destruct E as (ls & E1 & E2).
  apply (trace_fixed ls _ _ _ 0 E2 eq_refl (fixes_in _ F) (parse_ignore _ _ _ E1 N)).
  - intros H. rewrite no_load_zero in H. discriminate H.
  - exists (0 :: l1), l2. rewrite AD. reflexivity.
Qed.
Lemma program_warned depth pc src outs : psx_program depth pc src = ROk outs -> ~ In FixLoadDelay src -> ~ In ResetDelay src ->
  Forall (fun x => List.length (x_words x) = 1%nat) outs /\
  forall x y, adjacent x y outs -> forall w1 w2, x_words x = [w1] -> x_words y = [w2] -> hazard w1 w2 -> x_warn y = true.
Proof.
  intros E F N. unfold psx_program in E. apply rbind_ok in E. destruct E as (ls & E1 & E2).
  destruct (trace_warned ls _ _ _ E2 eq_refl (fixes_not_in _ F) (parse_ignore _ _ _ E1 N)) as (A & B & _). split; assumption.
Qed.
Lemma program_nops depth pc src outs : psx_program depth pc src = ROk outs -> In FixLoadDelay src ->
  Forall (fun x => exists w, x_words x = (if x_warn x then [0; w] else [w])) outs.
Proof.
  intros E F. unfold psx_program in E. apply rbind_ok in E. destruct E as (ls & E1 & E2).
  pose proof (trace_nops ls _ _ _ E2 eq_refl) as T. cbn [ms_fix] in T. rewrite (fixes_in _ F) in T. exact T.
Qed.
