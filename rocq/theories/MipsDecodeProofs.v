(** Reading emitted words: branch targets, and which instructions can share a word. *)

Require Import ZArith Lia Bool List String Ascii.
Require Import ZifyBool.
Require Import Verif.Ints Verif.IntsLemmas Verif.BitFields Verif.Res Verif.ArmModel Verif.MipsTable Verif.MipsModel Verif.MipsSpec
  Verif.MipsProofs Verif.MipsWordProofs Verif.MipsCpu.
Import ListNotations.
Local Open Scope Z_scope.

(** ** The fields of a form *)

Definition item_fields (it : item) : list slice :=
  match it with
  | Reg _ f | Vec _ f | Vec6 f | Ctl f | Mat f | MatT f | Elem f | Scalar f | Offset f | Imm f | Code f
  | HalfFloat f | Size f | Msb f | Cc f | Cond f | Arg _ f => f
  | Zero | Wb | Punct _ => []
  end.
Lemma first_fields ps f read v r : first ps f read = Some (v, r) -> map fst v = f.
Proof.
  unfold first. destruct ps as [|p ps]; [discriminate|]. destruct (read p) as [z|]; [|discriminate].
  intros E. injection E as <- _. unfold fill. rewrite map_map. apply map_id.
Qed.
Lemma fill_fields f v : map fst (fill f v) = f.
Proof. unfold fill. rewrite map_map. apply map_id. Qed.
Lemma item_fields_ok name pc prim it ps v r : read_item name pc prim it ps = Some (v, r) -> map fst v = item_fields it.
Proof.
  destruct it; cbn [read_item item_fields]; intros E; try (exact (first_fields _ _ _ _ _ E)).
  - destruct (elements name) as [n|]; [|discriminate]. destruct (scaled s n); [|discriminate]. exact (first_fields _ _ _ _ _ E).
  - destruct (elements name) as [n|]; [|discriminate]. destruct (scaled Same n); [|discriminate]. exact (first_fields _ _ _ _ _ E).
  - destruct (elements name) as [n|]; [|discriminate]. destruct (scaled Same n); [|discriminate]. exact (first_fields _ _ _ _ _ E).
  - assert (D : forall l, Some (fill f 0, l) = Some (v, r) -> map fst v = f) by (intros l H; injection H as <- _; apply fill_fields).
    destruct ps as [|p ps]; [exact (D _ E)|]. destruct p as [| | | | |b|]; try exact (D _ E). destruct b as [n|t n].
    + destruct (Z.of_N n <? 16); [|discriminate]. injection E as <- _. apply fill_fields.
    + destruct (look_up broadcast t); [|discriminate]. injection E as <- _. apply fill_fields.
  - destruct ps as [|p ps]; [discriminate|]. destruct p as [| | | | |b|]; try discriminate. destruct b as [|t [n|]]; try discriminate.
    destruct (Z.of_N n <? 8); [|discriminate]. injection E as <- _. apply fill_fields.
  - assert (D : forall l, Some (fill f 0, l) = Some (v, r) -> map fst v = f) by (intros l H; injection H as <- _; apply fill_fields).
    destruct ps as [|p ps]; [exact (D _ E)|]. destruct p as [| | | | |b|]; try exact (D _ E).
    destruct b as [|t [n|]]; try discriminate. destruct (Z.of_N n <? 16); [|discriminate]. injection E as <- _. apply fill_fields.
Qed.
Lemma form_fields_ok name pc : forall form prim ps vals, read_items name pc prim form ps = Some vals ->
  map fst vals = flat_map item_fields form.
Proof.
  induction form as [|it form IH]; intros prim ps vals E; cbn [read_items] in E.
  - destruct ps; [|discriminate]. injection E as <-. reflexivity.
  - destruct (read_item name pc prim it ps) as [[v r]|] eqn:R; [|discriminate].
    destruct (read_items name pc (next_prim it ps prim) form r) as [vs|] eqn:RS; [|discriminate]. injection E as <-.
    rewrite map_app. cbn [flat_map]. rewrite (item_fields_ok _ _ _ _ _ _ _ R), (IH _ _ _ RS). reflexivity.
Qed.

(** ** Fixed bits *)

Definition clear_of (form : list item) (lo len : Z) : bool :=
  forallb (fun f => (f_pos f + f_len f <=? lo) || (lo + len <=? f_pos f)) (flat_map item_fields form).
Lemma fixed_bits name pc form ps vals w base lo len : read_items name pc 0 form ps = Some vals ->
  (forall k, 0 <= k < 32 -> (forall x, In x vals -> ~ inside k (fst x)) -> Z.testbit w k = Z.testbit base k) ->
  clear_of form lo len = true -> 0 <= lo -> 0 <= len -> lo + len <= 32 -> bits w lo len = bits base lo len.
Proof.
  intros R B C H1 H2 H3. apply Z.bits_inj'. intros i Hi. rewrite !bits_testbit by lia.
  destruct (i <? len) eqn:L; [|reflexivity]. cbn [andb]. apply B; [lia|]. intros x Hx I.
  unfold clear_of in C. rewrite forallb_forall in C. specialize (C (fst x)).
  rewrite <- (form_fields_ok _ _ _ _ _ _ R) in C. specialize (C (in_map fst _ _ Hx)). unfold inside in I. lia.
Qed.

(** ** The last operand *)

Lemma last_of_app {A} (q r : list A) d : r <> [] -> last (q ++ r) d = last r d.
Proof.
  intros H. induction q as [|x q IH]; [reflexivity|]. cbn [app last]. destruct (q ++ r) eqn:E; [|exact IH].
  apply app_eq_nil in E. destruct E. contradiction.
Qed.
Lemma read_items_last name pc f : forall its prim ps vals, read_items name pc prim (its ++ [Imm f]) ps = Some vals ->
  exists z, integer (last ps (PSym ",")) = Some z /\ forall x, In x f -> In (x, meant (immediate_of name) pc z) vals.
Proof.
  induction its as [|it its IH]; intros prim ps vals E.
  - cbn [app read_items read_item] in E. unfold first in E. destruct ps as [|p ps]; [discriminate|].
    destruct (integer p) as [z|] eqn:I; [|discriminate]. destruct ps; [|discriminate]. injection E as <-. exists z.
    split; [exact I|]. intros x Hx. rewrite app_nil_r. unfold fill. apply in_map_iff. exists x. auto.
  - cbn [app read_items] in E. destruct (read_item name pc prim it ps) as [[v r]|] eqn:R; [|discriminate].
    destruct (read_items name pc (next_prim it ps prim) (its ++ [Imm f]) r) as [vs|] eqn:RS; [|discriminate]. injection E as <-.
    destruct (IH _ _ _ RS) as (z & I & H). exists z. split.
    + assert (NE : r <> []).
      { intros ->. destruct its as [|j its]; [cbn in RS; discriminate|]. cbn in I. discriminate. }
      assert (exists q, ps = q ++ r) as [q ->].
      { clear - R. assert (F : forall f g, first ps f g = Some (v, r) -> exists q, ps = q ++ r).
        { intros f g H. unfold first in H. destruct ps as [|p ps]; [discriminate|]. destruct (g p); [|discriminate].
          injection H as _ <-. exists [p]. reflexivity. }
        assert (D : forall l : list (slice * Z), Some (l, ps) = Some (v, r) -> exists q, ps = q ++ r).
        { intros l H. injection H as _ <-. exists []. reflexivity. }
        destruct it; cbn [read_item] in R; try (exact (F _ _ R)).
        - destruct (elements name) as [n|]; [|discriminate]. destruct (scaled s n); [|discriminate]. exact (F _ _ R).
        - destruct (elements name) as [n|]; [|discriminate]. destruct (scaled Same n); [|discriminate]. exact (F _ _ R).
        - destruct (elements name) as [n|]; [|discriminate]. destruct (scaled Same n); [|discriminate]. exact (F _ _ R).
        - destruct ps as [|p ps]; [exact (D _ R)|]. destruct p as [| | | | |b|]; try exact (D _ R). destruct b as [n|t n].
          + destruct (Z.of_N n <? 16); [|discriminate]. injection R as _ <-. eexists [_]. reflexivity.
          + destruct (look_up broadcast t); [|discriminate]. injection R as _ <-. eexists [_]. reflexivity.
        - destruct ps as [|p ps]; [discriminate|]. destruct p as [| | | | |b|]; try discriminate. destruct b as [|t [n|]]; try discriminate.
          destruct (Z.of_N n <? 8); [|discriminate]. injection R as _ <-. eexists [_]. reflexivity.
        - destruct ps as [|p ps]; [exact (D _ R)|]. destruct p as [| | | | |b|]; try exact (D _ R).
          destruct b as [|t [n|]]; try discriminate. destruct (Z.of_N n <? 16); [|discriminate]. injection R as _ <-. eexists [_]. reflexivity. }
      rewrite last_of_app by assumption. exact I.
    + intros x Hx. apply in_or_app. right. apply H, Hx.
Qed.

(** ** Forms with one piece for each item *)

Definition one_piece (it : item) : bool :=
  match it with Reg _ _ | Imm _ | Code _ | Cc _ | Zero | Punct _ | Size _ | Msb _ => true | _ => false end.
Lemma read_one name pc prim it ps v r : one_piece it = true -> read_item name pc prim it ps = Some (v, r) ->
  exists p, ps = p :: r.
Proof.
  intros O E. assert (F : forall f g, first ps f g = Some (v, r) -> exists p, ps = p :: r).
  { intros f g H. unfold first in H. destruct ps as [|p q]; [discriminate|]. destruct (g p); [|discriminate].
    injection H as _ <-. exists p. reflexivity. }
  destruct it; try discriminate O; exact (F _ _ E).
Qed.
Lemma read_items_nth name pc f post : forall pre prim ps vals, forallb one_piece pre = true ->
  read_items name pc prim (pre ++ Imm f :: post) ps = Some vals ->
  exists z, integer (nth (List.length pre) ps (PSym ",")) = Some z /\
            forall x, In x f -> In (x, meant (immediate_of name) pc z) vals.
Proof.
  induction pre as [|it pre IH]; intros prim ps vals O E.
  - cbn [app read_items read_item] in E. unfold first in E. destruct ps as [|p ps]; [discriminate|].
    destruct (integer p) as [z|] eqn:I; [|discriminate].
    destruct (read_items _ _ _ post ps) as [vs|]; [|discriminate]. injection E as <-. exists z.
    split; [exact I|]. intros x Hx. apply in_or_app. left. unfold fill. apply in_map_iff. exists x. auto.
  - cbn [forallb] in O. apply andb_true_iff in O. destruct O as [O1 O2].
    cbn [app read_items] in E. destruct (read_item name pc prim it ps) as [[v r]|] eqn:R; [|discriminate].
    destruct (read_items name pc (next_prim it ps prim) (pre ++ Imm f :: post) r) as [vs|] eqn:RS; [|discriminate]. injection E as <-.
    destruct (read_one _ _ _ _ _ _ _ O1 R) as [p ->]. destruct (IH _ _ _ O2 RS) as (z & I & H).
    exists z. split; [exact I|]. intros x Hx. apply in_or_app. right. apply H, Hx.
Qed.
Lemma read_items_length name pc : forall its prim ps vals, forallb one_piece its = true ->
  read_items name pc prim its ps = Some vals -> List.length ps = List.length its.
Proof.
  induction its as [|it its IH]; intros prim ps vals O E.
  - cbn [read_items] in E. destruct ps; [reflexivity|discriminate].
  - cbn [forallb] in O. apply andb_true_iff in O. destruct O as [O1 O2].
    cbn [read_items] in E. destruct (read_item name pc prim it ps) as [[v r]|] eqn:R; [|discriminate].
    destruct (read_items name pc (next_prim it ps prim) its r) as [vs|] eqn:RS; [|discriminate].
    destruct (read_one _ _ _ _ _ _ _ O1 R) as [p ->]. cbn [List.length]. f_equal. exact (IH _ _ _ O2 RS).
Qed.
Lemma read_items_punct name pc c post : forall pre prim ps vals, forallb one_piece pre = true ->
  read_items name pc prim (pre ++ Punct c :: post) ps = Some vals ->
  nth (List.length pre) ps (PInt 0 0) = PSym c.
Proof.
  induction pre as [|it pre IH]; intros prim ps vals O E.
  - cbn [app read_items read_item] in E. unfold first in E. destruct ps as [|p ps]; [discriminate|].
    destruct p as [d| | | | | |]; try discriminate. destruct (Ascii.eqb_spec c d) as [->|]; [reflexivity|discriminate].
  - cbn [forallb] in O. apply andb_true_iff in O. destruct O as [O1 O2].
    cbn [app read_items] in E. destruct (read_item name pc prim it ps) as [[v r]|] eqn:R; [|discriminate].
    destruct (read_items name pc (next_prim it ps prim) (pre ++ Punct c :: post) r) as [vs|] eqn:RS; [|discriminate].
    destruct (read_one _ _ _ _ _ _ _ O1 R) as [p ->]. exact (IH _ _ _ O2 RS).
Qed.

(** ** Branches and jumps *)

Fixpoint ends_with (f : list slice) (form : list item) : bool :=
  match form with
  | [Imm g] => slices_eqb f g
  | it :: form => one_piece it && ends_with f form
  | [] => false
  end.
Lemma ends_with_spec f : forall form, ends_with f form = true -> exists pre, form = pre ++ [Imm f] /\ forallb one_piece pre = true.
Proof.
  induction form as [|it form IH]; [discriminate|]. intros E. destruct form as [|it2 form].
  - cbn in E. destruct it; try (cbn in E; discriminate). apply slices_eqb_eq in E. subst. exists []. auto.
  - assert (E' : one_piece it && ends_with f (it2 :: form) = true) by (destruct it; exact E).
    apply andb_true_iff in E'. destruct E' as [E1 E2]. destruct (IH E2) as (pre & -> & H). exists (it :: pre). cbn. rewrite E1. auto.
Qed.
Lemma nth_last {A} (l : list A) d n : List.length l = S n -> nth n l d = last l d.
Proof.
  revert n. induction l as [|x l IH]; intros n H; [discriminate|]. cbn in H. injection H as H. destruct l as [|y l].
  - cbn in H. subst n. reflexivity.
  - destruct n as [|n]; [discriminate|]. change (nth n (y :: l) d = last (x :: y :: l) d). rewrite (IH n H). reflexivity.
Qed.
Lemma read_last name pc f form ps vals : ends_with f form = true -> read_items name pc 0 form ps = Some vals ->
  exists z, integer (last ps (PSym ",")) = Some z /\ forall x, In x f -> In (x, meant (immediate_of name) pc z) vals.
Proof.
  intros E R. destruct (ends_with_spec _ _ E) as (pre & -> & O). destruct (read_items_nth _ _ _ _ _ _ _ _ O R) as (z & I & H).
  exists z. split; [|exact H]. rewrite <- I. f_equal. symmetry. apply nth_last.
  assert (O' : forallb one_piece (pre ++ [Imm f]) = true) by (rewrite forallb_app, O; reflexivity).
  rewrite (read_items_length _ _ _ _ _ _ O' R), app_length. cbn. lia.
Qed.

(** [branch_target] looks at these bits only. *)
Definition branch_form_ok (ins : instruction) (form : list item) : bool :=
  let b := n_base ins in
  clear_of form 26 6 && (negb (w_op b =? 1) || clear_of form 16 5) && (negb (among (w_op b) [17; 18]) || clear_of form 21 5) &&
  match immediate_of (n_name ins) with
  | Branch => is_relative b && ends_with (fld 0 16) form
  | Jump => negb (is_relative b) && is_jump b && ends_with (fld 0 26) form
  | _ => true
  end.
Lemma branch_forms : forallb (fun ins => match immediate_of (n_name ins) with
    | Branch | Jump => forallb (branch_form_ok ins) (n_forms ins)
    | _ => true
    end) isa = true.
Proof. vm_compute. reflexivity. Qed.

Lemma encodes_branch a pc name ps w : encodes a pc name ps w ->
  match immediate_of name with
  | Branch => is_relative w = true /\ exists z, integer (last ps (PSym ",")) = Some z /\ w_imm w = bits ((z - (pc + 4)) / 4) 0 16
  | Jump => is_relative w = false /\ is_jump w = true /\ exists z, integer (last ps (PSym ",")) = Some z /\ w_index w = bits (z / 4) 0 26
  | _ => True
  end.
Proof.
  intros (ins & form & vals & IN & NAME & _ & FORM & READ & _ & HOLD & FIX). subst name.
  destruct (immediate_of (n_name ins)) eqn:IM; try exact I.
  all: pose proof branch_forms as OK; rewrite forallb_forall in OK; specialize (OK ins IN); rewrite IM in OK;
    rewrite forallb_forall in OK; specialize (OK form FORM); unfold branch_form_ok in OK; rewrite IM in OK; rewrite !andb_true_iff in OK.
  - destruct OK as [[[C1 C2] C3] [C4 C5]].
    assert (OP : w_op w = w_op (n_base ins)) by (apply (fixed_bits _ _ _ _ _ _ _ _ _ READ FIX C1); lia).
    assert (REL : is_relative w = is_relative (n_base ins)).
    { unfold is_relative. rewrite OP. f_equal; [f_equal|].
      - destruct (w_op (n_base ins) =? 1) eqn:O; [|reflexivity]. cbn [negb orb] in C2.
        assert (w_rt w = w_rt (n_base ins)) as -> by (apply (fixed_bits _ _ _ _ _ _ _ _ _ READ FIX C2); lia). reflexivity.
      - destruct (among (w_op (n_base ins)) [17; 18]) eqn:O; [|reflexivity]. cbn [negb orb] in C3.
        assert (w_rs w = w_rs (n_base ins)) as -> by (apply (fixed_bits _ _ _ _ _ _ _ _ _ READ FIX C3); lia). reflexivity. }
    split; [congruence|]. destruct (read_last _ _ _ _ _ _ C5 READ) as (z & I & H). exists z. split; [exact I|].
    specialize (H _ (or_introl eq_refl)). rewrite Forall_forall in HOLD. specialize (HOLD _ H). rewrite IM in HOLD. exact HOLD.
  - destruct OK as [[[C1 C2] C3] [[C4 C5] C6]].
    assert (OP : w_op w = w_op (n_base ins)) by (apply (fixed_bits _ _ _ _ _ _ _ _ _ READ FIX C1); lia).
    assert (REL : is_relative w = is_relative (n_base ins)).
    { unfold is_relative. rewrite OP. f_equal; [f_equal|].
      - destruct (w_op (n_base ins) =? 1) eqn:O; [|reflexivity]. cbn [negb orb] in C2.
        assert (w_rt w = w_rt (n_base ins)) as -> by (apply (fixed_bits _ _ _ _ _ _ _ _ _ READ FIX C2); lia). reflexivity.
      - destruct (among (w_op (n_base ins)) [17; 18]) eqn:O; [|reflexivity]. cbn [negb orb] in C3.
        assert (w_rs w = w_rs (n_base ins)) as -> by (apply (fixed_bits _ _ _ _ _ _ _ _ _ READ FIX C3); lia). reflexivity. }
    split; [rewrite REL; apply negb_true_iff, C4|]. split; [unfold is_jump; rewrite OP; exact C5|].
    destruct (read_last _ _ _ _ _ _ C6 READ) as (z & I & H). exists z. split; [exact I|].
    specialize (H _ (or_introl eq_refl)). rewrite Forall_forall in HOLD. specialize (HOLD _ H). rewrite IM in HOLD. exact HOLD.
Qed.

(** ** The range of accepted branches *)

Definition one_token (t : tmpl) : bool := match t with TReg _ _ | TForced _ | TSec _ | TSym _ => true | _ => false end.
Lemma parse_one o t i ps j r : one_token t = true -> parse_operand o t i ps = Some (j, r) -> exists p, ps = p :: r.
Proof.
  intros O E. destruct t; try discriminate O; cbn [parse_operand] in E.
  - destruct ps as [|p ps]; [discriminate|]. destruct (parse_register f p); [|discriminate]. injection E as _ <-. exists p. reflexivity.
  - destruct ps as [|p ps]; [discriminate|]. destruct (parse_register RfGpr p) as [v|]; [|discriminate].
    destruct (v =? n); [|discriminate]. injection E as _ <-. exists p. reflexivity.
  - assert (G : forall ty, match ps with [] => None | p :: r => match parse_immediate p with
               | Some v => Some (set_secondary i ty (Some v) (i_sval i), r) | None => None end end = Some (j, r) -> exists p, ps = p :: r).
    { intros ty H. destruct ps as [|p ps]; [discriminate|]. destruct (parse_immediate p); [|discriminate]. injection H as _ <-.
      exists p. reflexivity. }
    destruct t; try exact (G _ E). destruct ps as [|p ps]; [discriminate|].
    destruct p as [|dol s v| |n h| | |]; try discriminate.
    + destruct dol; [discriminate|]. destruct (find_name cop2Conditions s); [|discriminate]. injection E as _ <-. eexists. reflexivity.
    + destruct (Z.of_N n <=? 5); [|discriminate]. injection E as _ <-. eexists. reflexivity.
  - destruct ps as [|p ps]; [discriminate|]. destruct p as [d| | | | | |]; try discriminate. destruct (Ascii.eqb c d); [|discriminate].
    injection E as _ <-. eexists. reflexivity.
Qed.
Lemma parse_last o ty : forall ts i ps i', forallb one_token ts = true -> parse_operands o (ts ++ [TImm ty]) i ps = Some (i', []) ->
  i_ptype i' = ty /\ exists e, parse_immediate (last ps (PSym ",")) = Some e /\ i_pexp i' = Some e.
Proof.
  induction ts as [|t ts IH]; intros i ps i' O E.
  - cbn [app parse_operands parse_operand] in E. destruct ps as [|p ps]; [discriminate|].
    destruct (parse_immediate p) as [e|] eqn:P; [|discriminate]. injection E as <- ->. split; [reflexivity|]. exists e. auto.
  - cbn [forallb] in O. apply andb_true_iff in O. destruct O as [O1 O2]. cbn [app parse_operands] in E.
    destruct (parse_operand o t i ps) as [[j r]|] eqn:P; [|discriminate]. destruct (parse_one _ _ _ _ _ _ O1 P) as [p ->].
    destruct (IH _ _ _ O2 E) as [H1 (e & H2 & H3)]. split; [exact H1|]. exists e. split; [|exact H3].
    destruct r as [|q r]; [|exact H2]. exfalso. destruct ts as [|t2 ts]; cbn [app parse_operands] in E.
    + discriminate.
    + destruct t2; try discriminate O2; cbn [parse_operand] in E; try discriminate; match type of E with context [match ?t with _ => _ end] => destruct t; discriminate end.
Qed.

Definition ends_imm (ty : imm_type) (ts : list tmpl) : bool :=
  match rev ts with
  | TImm t :: pre => (if imm_type_eq_dec t ty then true else false) && forallb one_token pre
  | _ => false
  end.
Lemma ends_imm_spec ty ts : ends_imm ty ts = true -> exists pre, ts = pre ++ [TImm ty] /\ forallb one_token pre = true.
Proof.
  unfold ends_imm. destruct (rev ts) as [|t pre] eqn:R; [discriminate|]. destruct t as [| | | | | | | |ty0| | | | | |]; try discriminate.
  destruct (imm_type_eq_dec ty0 ty) as [->|]; [|discriminate]. cbn [andb]. intros H. exists (rev pre). split.
  - rewrite <- (rev_involutive ts), R. reflexivity.
  - rewrite forallb_forall in *. intros x Hx. apply H, in_rev, Hx.
Qed.

(** Rows for branches and for instructions with a 16-bit immediate as it is. *)
Definition branch_row_ok (o : mips_opcode) (name : string) : bool :=
  match immediate_of name with
  | Branch => mhas o MO_IPCR && negb (mhas o MO_IPCA) && negb (mhas o MO_NEGIMM) && ends_imm Immediate16 (template (m_encoding o))
  | _ => true
  end.
Lemma branch_rows : forallb (fun o => forallb (fun e => branch_row_ok o (fst (fst e))) (expansions (m_name o))) MipsOpcodes = true.
Proof. vm_compute. reflexivity. Qed.

Lemma assemble_row s ignore pc name ps out : mips_assemble s ignore pc name ps = ROk out ->
  exists o i ts0 i' pv, In o MipsOpcodes /\ (exists sz cc, In (name, sz, cc) (expansions (m_name o))) /\ row_available (ms_arch s) o = true /\
    parse_operands o (template (m_encoding o)) ts0 ps = Some (i', []) /\
    i = set_regs i' (setOmittedRegisters o (i_regs i')) /\ validate_primary o pc i' = ROk pv /\ Z.rem pc 4 = 0.
Proof.
  intros E. unfold mips_assemble in E. destruct (mips_parse (ms_arch s) name ps) as [[o i]|] eqn:P; [|discriminate].
  apply parse_rows_in in P. destruct P as [Ho PR]. unfold parse_row in PR. destruct (row_available (ms_arch s) o) eqn:AV; [|discriminate].
  destruct (decodeOpcode (m_name o) name fresh_inst) as [j|] eqn:D; [|discriminate].
  apply decode_expansions in D. destruct D as (sz & cc & IN & ->).
  rewrite parseParameters_eq in PR.
  destruct (parse_operands o (template (m_encoding o)) (sized_inst o (named fresh_inst sz cc)) ps) as [[i' [|]]|] eqn:PO; try discriminate.
  injection PR as <-. apply rbind_ok in E. destruct E as (v & EV & _).
  unfold mips_validate in EV. destruct (Z.rem pc 4 =? 0) eqn:PC; [|discriminate]. cbn [negb] in EV.
  apply rbind_ok in EV. destruct EV as (pv & VP & _).
  exists o, (set_regs i' (setOmittedRegisters o (i_regs i'))), (sized_inst o (named fresh_inst sz cc)), i', pv.
  split; [exact Ho|]. split; [exists sz, cc; exact IN|]. split; [exact AV|]. split; [exact PO|]. split; [reflexivity|]. split; [exact VP|lia].
Qed.

Lemma branch_range s ignore pc name ps out : mips_assemble s ignore pc name ps = ROk out -> immediate_of name = Branch ->
  exists z, integer (last ps (PSym ",")) = Some z /\ -0x20000 <= s32 (z - pc - 4) <= 0x20000 /\ pc mod 4 = 0.
Proof.
  intros A B. destruct (assemble_row _ _ _ _ _ _ A) as (o & i & i0 & i' & pv & Ho & (sz & cc & IN) & AV & PO & _ & VP & PC).
  pose proof branch_rows as R. rewrite forallb_forall in R. specialize (R o Ho). rewrite forallb_forall in R. specialize (R _ IN).
  cbn [fst] in R. unfold branch_row_ok in R. rewrite B in R. rewrite !andb_true_iff, !negb_true_iff in R. destruct R as [[[R1 R2] R3] R4].
  destruct (ends_imm_spec _ _ R4) as (pre & T & O). rewrite T in PO. destruct (parse_last _ _ _ _ _ _ O PO) as [PT (e & PI & PE)].
  unfold validate_primary in VP. rewrite PT, PE in VP. cbv iota in VP. destruct (imm_type_eq_dec Immediate16 ImmediateHalfFloat) as [X|_]; [discriminate X|].
  apply rbind_ok in VP. destruct VP as (v & EV & VP). apply rbind_ok in VP. destruct VP as (v2 & AD & _).
  destruct e as [z h| |]; try discriminate EV. cbn [evaluate_int] in EV. apply ROk_inj in EV. subst v.
  exists z. split; [exact (parse_immediate_int _ _ _ _ PI eq_refl)|].
  unfold adjust_primary in AD. destruct (mhas o MO_IMMALIGNED && negb (Z.rem (s32 z) 4 =? 0)); [discriminate|]. rewrite R3, R2, R1 in AD.
  cbv zeta in AD. destruct ((s32 (s32 z - pc - 4) >? 131072) || (s32 (s32 z - pc - 4) <? -131072)) eqn:RG; [discriminate|].
  replace (s32 (s32 z - pc - 4)) with (s32 (z - pc - 4)) in RG.
  - split; [lia|]. rewrite Z.rem_eq in PC by lia. pose proof (Z.quot_rem' pc 4). apply Z.mod_divide; [lia|]. exists (pc ÷ 4). lia.
  - destruct (s32_wrap z) as [k K]. rewrite K. unfold s32.
    replace (z + 4294967296 * k - pc - 4) with (z - pc - 4 + k * 4294967296) by ring. rewrite Z.mod_add by lia. reflexivity.
Qed.

Lemma branch_regular a name ps : immediate_of name = Branch \/ immediate_of name = Jump -> irregular a name ps = false.
Proof.
  intros B. unfold irregular. rewrite !orb_false_iff.
  assert (E1 : forall l n, mem n l = true -> In n l).
  { intros l n H. unfold mem in H. apply existsb_exists in H. destruct H as (x & H1 & H2). apply String.eqb_eq in H2. subst. exact H1. }
  assert (N : forall l, forallb (fun n => match immediate_of n with Branch | Jump => false | _ => true end) l = true -> mem name l = false).
  { intros l H. destruct (mem name l) eqn:M; [|reflexivity]. rewrite forallb_forall in H. specialize (H _ (E1 _ _ M)).
    destruct B as [B|B]; rewrite B in H; discriminate H. }
  assert (N1 : String.eqb name "ins" = false).
  { destruct (String.eqb_spec name "ins"); [|reflexivity]. subst. destruct B as [B|B]; discriminate B. }
  rewrite N1, (N ["wsbh"; "wsbw"; "seb"; "bitrev"; "seh"]%string eq_refl), (N ["sqrt.s"; "rsqrt.w.s"]%string eq_refl), andb_false_r.
  split; [|reflexivity]. split; [split; reflexivity|].
  destruct (mem (stem name) ["vcmovt"; "vcmovf"]%string) eqn:M; [|reflexivity]. exfalso. apply E1 in M.
  unfold immediate_of in B.
  destruct (mem name ["j"; "jal"]%string) eqn:M1.
  { apply E1 in M1. cbn in M1. repeat (destruct M1 as [<-|M1]; [cbn in M; intuition discriminate|]). contradiction. }
  match type of B with context [if mem name ?l then Branch else _] => destruct (mem name l) eqn:M2 end.
  { apply E1 in M2. cbn [In] in M2. repeat (destruct M2 as [<-|M2]; [cbn in M; intuition discriminate|]). contradiction. }
  assert (M3 : mem (stem name) ["bvf"; "bvt"; "bvfl"; "bvtl"]%string = false).
  { cbn [In] in M. destruct M as [<-|[<-|[]]]; reflexivity. }
  rewrite M3 in B.
  destruct (mem name ["subi"; "subiu"; "dsubi"; "dsubiu"]%string); [destruct B; discriminate|].
  destruct (mem name ["lsv"; "ssv"]%string); [destruct B; discriminate|].
  destruct (mem name ["llv"; "slv"]%string); [destruct B; discriminate|].
  destruct (mem name ["ldv"; "sdv"; "lpv"; "spv"; "luv"; "suv"]%string); [destruct B; discriminate|].
  match type of B with context [if mem name ?l then _ else _] => destruct (mem name l); destruct B; discriminate end.
Qed.

Lemma s16_bits x : s16 (bits x 0 16) = s16 x.
Proof. unfold s16, bits. change (2 ^ 0) with 1. change (2 ^ 16) with 65536. rewrite Z.div_1_r, Z.mod_mod by lia. reflexivity. Qed.

Theorem branch_exact s ignore pc name ps out z w : mips_assemble s ignore pc name ps = ROk out -> immediate_of name = Branch ->
  x_words out = [w] -> integer (last ps (PSym ",")) = Some z -> z mod 4 = 0 -> s32 (z - pc - 4) <> 0x20000 ->
  branch_target pc w = Some (u32 z).
Proof.
  intros A B W I AL NE. destruct (assemble_encodes _ _ _ _ _ _ A (branch_regular _ _ _ (or_introl B))) as (w' & W' & EN).
  assert (w' = w) as -> by (destruct W' as [W'|[W' _]]; rewrite W in W'; congruence).
  destruct (branch_range _ _ _ _ _ _ A B) as (z' & I' & RG & PC). rewrite I in I'. injection I' as <-.
  apply encodes_branch in EN. rewrite B in EN. destruct EN as [REL (z' & I' & IM)]. rewrite I in I'. injection I' as <-.
  unfold branch_target. rewrite REL. f_equal. unfold w_simm. rewrite IM, s16_bits.
  set (d := z - pc - 4) in *. replace (z - (pc + 4)) with d by (unfold d; ring).
  assert (D : d mod 4 = 0).
  { unfold d. rewrite Zminus_mod, (Zminus_mod z pc), AL, PC. reflexivity. }
  destruct (s32_wrap d) as [k K]. pose proof (s32_mod d).
  assert (D2 : s32 d mod 4 = 0) by (rewrite K; replace (d + 4294967296 * k) with (d + (1073741824 * k) * 4) by ring; rewrite Z.mod_add by lia; exact D).
  assert (Q : d / 4 = s32 d / 4 + (- (16384 * k)) * 65536).
  { rewrite K. replace (d + 4294967296 * k) with (d + (1073741824 * k) * 4) by ring. rewrite Z.div_add by lia. ring. }
  assert (Q2 : s16 (d / 4) = s32 d / 4).
  { rewrite Q. unfold s16. rewrite Z.mod_add by lia. fold (s16 (s32 d / 4)). apply s16_small.
    pose proof (Z.div_mod (s32 d) 4 ltac:(lia)). lia. }
  rewrite Q2. pose proof (Z.div_mod (s32 d) 4 ltac:(lia)).
  replace (pc + 4 + 4 * (s32 d / 4)) with (pc + 4 + s32 d) by lia. rewrite K.
  apply u32_eq_mod with (k := k). unfold d. ring.
Qed.

Theorem jump_exact s ignore pc name ps out z w : mips_assemble s ignore pc name ps = ROk out -> immediate_of name = Jump ->
  x_words out = [w] -> integer (last ps (PSym ",")) = Some z -> z mod 4 = 0 -> u32 z / 2 ^ 28 = u32 (pc + 4) / 2 ^ 28 ->
  branch_target pc w = Some (u32 z).
Proof.
  intros A B W I AL RG. destruct (assemble_encodes _ _ _ _ _ _ A (branch_regular _ _ _ (or_intror B))) as (w' & W' & EN).
  assert (w' = w) as -> by (destruct W' as [W'|[W' _]]; rewrite W in W'; congruence).
  apply encodes_branch in EN. rewrite B in EN. destruct EN as (REL & JMP & z' & I' & IM). rewrite I in I'. injection I' as <-.
  unfold branch_target. rewrite REL, JMP. f_equal. rewrite <- RG, IM. unfold bits, u32.
  change (2 ^ 28) with 268435456. change (2 ^ 0) with 1. change (2 ^ 26) with 67108864. rewrite Z.div_1_r.
  Z.to_euclidean_division_equations. lia.
Qed.

(** ** Immediates *)

Definition slots_of (k : immediate) : list slice := match k with Amount => SA | _ => fld 0 16 end.
Definition punct (c : ascii) (it : item) : bool := match it with Punct d => Ascii.eqb c d | _ => false end.
Definition is_memory (f : list slice) (form : list item) : bool :=
  match form with
  | [x; y; Imm g; a; b; c] =>
    one_piece x && one_piece y && punct "(" a && one_piece b && punct ")" c && slices_eqb f g
  | _ => false
  end.
Lemma punct_spec c it : punct c it = true -> it = Punct c.
Proof. destruct it; try discriminate. cbn. intros E. apply Ascii.eqb_eq in E. subst. reflexivity. Qed.
Definition no_imm (form : list item) : bool := forallb (fun it => match it with Imm _ => false | _ => true end) form.
(** A form that ends with a register or a bracket, or is empty. *)
Definition without_imm (form : list item) : bool :=
  forallb one_piece form && match rev form with (Reg Gpr _ | Punct _) :: _ | [] => true | _ => false end.
(** The bits [immediate_kind] looks at are fixed, and the immediate of the form is where it should be;
    a form without one has no immediate operand. *)
Definition imm_form_ok (vfpu : bool) (ins : instruction) (form : list item) : bool :=
  let b := n_base ins in
  if clear_of form 26 6 then
    if (if w_op b =? 1 then clear_of form 16 5 else true) then
      if (if w_op b =? 0 then clear_of form 0 6 else true) then
        match immediate_kind vfpu b with
        | Some k => if ends_with (slots_of k) form then true else if is_memory (slots_of k) form then true
                    else if no_imm form then if Nat.eqb (List.length form) 6 then false else without_imm form else false
        | None => true
        end
      else false
    else false
  else false.
Lemma imm_forms : forallb (fun ins => if match immediate_of (n_name ins) with Plain | Negated => true | _ => false end then
    forallb (fun a => forallb (imm_form_ok (vfpu_unit a) ins) (n_forms ins)) (n_on ins) else true) isa = true.
Proof. vm_compute. reflexivity. Qed.

Lemma integer_last name pc form ps vals : forallb one_piece form = true ->
  match rev form with (Reg Gpr _ | Punct _) :: _ | [] => true | _ => false end = true ->
  read_items name pc 0 form ps = Some vals -> integer (last ps (PSym ",")) = None.
Proof.
  generalize 0 at 1. revert ps vals. induction form as [|it form IH]; intros ps vals prim O L R.
  - cbn [read_items] in R. destruct ps; [reflexivity|discriminate].
  - cbn [forallb] in O. apply andb_true_iff in O. destruct O as [O1 O2]. cbn [read_items] in R.
    destruct (read_item name pc prim it ps) as [[v r]|] eqn:RI; [|discriminate].
    destruct (read_items name pc (next_prim it ps prim) form r) as [vs|] eqn:RS; [|discriminate].
    destruct (read_one _ _ _ _ _ _ _ O1 RI) as [p ->]. destruct form as [|it2 form].
    + cbn [read_items] in RS. destruct r; [|discriminate]. cbn [last]. cbn [rev app] in L.
      destruct it; try discriminate L.
      * destruct k; try discriminate L. cbn [read_item first] in RI. destruct p as [|dol x u| | | | |]; try reflexivity; try discriminate.
        cbn [register] in RI. unfold integer. destruct dol; [reflexivity|]. destruct u; try reflexivity.
        destruct (look_up (names_of Gpr) x); [reflexivity|discriminate].
      * cbn [read_item first] in RI. destruct p; try discriminate. reflexivity.
    + assert (r <> []).
      { intros ->. cbn [forallb] in O2. apply andb_true_iff in O2. destruct O2 as [O2 _]. cbn [read_items] in RS.
        destruct (read_item name pc (next_prim it [p] prim) it2 []) as [[v2 r2]|] eqn:RI2; [|discriminate].
        destruct (read_one _ _ _ _ _ _ _ O2 RI2); discriminate. }
      rewrite (last_of_app [p] r) by assumption. eapply IH; [exact O2| |exact RS].
      cbn [rev] in L |- *. destruct (rev form) as [|y l]; [exact L|]. exact L.
Qed.

Lemma encodes_immediate a pc name ps w k z : encodes a pc name ps w ->
  match immediate_of name with Plain | Negated => True | _ => False end ->
  immediate_kind (vfpu_unit a) w = Some k -> integer (immediate_operand ps) = Some z ->
  forall x, In x (slots_of k) -> holds w (x, meant (immediate_of name) pc z).
Proof.
  intros (ins & form & vals & IN & NAME & ON & FORM & READ & _ & HOLD & FIX) PL K I. subst name.
  pose proof imm_forms as OK. rewrite forallb_forall in OK. specialize (OK ins IN).
  assert (OK' : forallb (fun a => forallb (imm_form_ok (vfpu_unit a) ins) (n_forms ins)) (n_on ins) = true)
    by (destruct (immediate_of (n_name ins)); try contradiction; exact OK). clear OK.
  rewrite forallb_forall in OK'. specialize (OK' a ON). rewrite forallb_forall in OK'. specialize (OK' form FORM). unfold imm_form_ok in OK'.
  destruct (clear_of form 26 6) eqn:C1; [|discriminate].
  destruct (if w_op (n_base ins) =? 1 then clear_of form 16 5 else true) eqn:C2; [|discriminate].
  destruct (if w_op (n_base ins) =? 0 then clear_of form 0 6 else true) eqn:C3; [|discriminate].
  assert (OP : w_op w = w_op (n_base ins)) by (apply (fixed_bits _ _ _ _ _ _ _ _ _ READ FIX C1); lia).
  assert (KK : immediate_kind (vfpu_unit a) w = immediate_kind (vfpu_unit a) (n_base ins)).
  { unfold immediate_kind. rewrite OP.
    assert (E1 : (w_op (n_base ins) =? 1) && among (w_rt w) [8; 9; 10; 11; 12; 14] = (w_op (n_base ins) =? 1) && among (w_rt (n_base ins)) [8; 9; 10; 11; 12; 14]).
    { destruct (w_op (n_base ins) =? 1); [|reflexivity].
      assert (w_rt w = w_rt (n_base ins)) as -> by (apply (fixed_bits _ _ _ _ _ _ _ _ _ READ FIX C2); lia). reflexivity. }
    assert (E2 : (w_op (n_base ins) =? 0) && among (w_fn w) [0; 2; 3; 56; 58; 59; 60; 62; 63] = (w_op (n_base ins) =? 0) && among (w_fn (n_base ins)) [0; 2; 3; 56; 58; 59; 60; 62; 63]).
    { destruct (w_op (n_base ins) =? 0); [|reflexivity].
      assert (w_fn w = w_fn (n_base ins)) as -> by (apply (fixed_bits _ _ _ _ _ _ _ _ _ READ FIX C3); lia). reflexivity. }
    rewrite E1, E2. reflexivity. }
  rewrite <- KK, K in OK'. rewrite Forall_forall in HOLD.
  assert (NOT6 : forall l, integer (last l (PSym ",")) <> None -> immediate_operand l = last l (PSym ",")).
  { intros l H. destruct l as [|p1 [|p2 [|p3 [|p4 [|p5 [|p6 [|p7 l]]]]]]]; try reflexivity.
    all: destruct p4 as [[[] [] [] [] [] [] [] []]| | | | | |]; try reflexivity.
    - destruct p6 as [c6| | | | | |]; try reflexivity. cbn in H. congruence.
    - destruct p6 as [[[] [] [] [] [] [] [] []]| | | | | |]; reflexivity. }
  destruct (ends_with (slots_of k) form) eqn:EW.
  - destruct (read_last _ _ _ _ _ _ EW READ) as (z' & I' & H). rewrite NOT6 in I by congruence. rewrite I in I'. injection I' as <-.
    intros x Hx. apply HOLD, H, Hx.
  - destruct (is_memory (slots_of k) form) eqn:IM.
    + unfold is_memory in IM. destruct form as [|x0 [|x1 [|x2 [|x3 [|x4 [|x5 [|]]]]]]]; try (destruct x2; discriminate IM); try discriminate IM.
      destruct x2 as [| | | | | | | | |g| | | | | | | | | |]; try discriminate IM. rewrite !andb_true_iff in IM.
      destruct IM as [[[[[M0 M1] M3] M4] M5] MG]. apply punct_spec in M3, M5. subst x3 x5. apply slices_eqb_eq in MG. subst g.
      assert (O : forallb one_piece [x0; x1] = true) by (cbn; rewrite M0, M1; reflexivity).
      destruct (read_items_nth (n_name ins) pc (slots_of k) _ [x0; x1] 0 ps vals O READ) as (z' & I' & H).
      assert (O3 : forallb one_piece [x0; x1; Imm (slots_of k)] = true) by (cbn; rewrite M0, M1; reflexivity).
      pose proof (read_items_punct (n_name ins) pc "(" [x4; Punct ")"] [x0; x1; Imm (slots_of k)] 0 ps vals O3 READ) as P3.
      assert (O5 : forallb one_piece [x0; x1; Imm (slots_of k); Punct "("; x4] = true) by (cbn; rewrite M0, M1, M4; reflexivity).
      pose proof (read_items_punct (n_name ins) pc ")" [] [x0; x1; Imm (slots_of k); Punct "("; x4] 0 ps vals O5 READ) as P5.
      assert (O6 : forallb one_piece [x0; x1; Imm (slots_of k); Punct "("; x4; Punct ")"] = true) by (cbn; rewrite M0, M1, M4; reflexivity).
      pose proof (read_items_length _ _ _ _ _ _ O6 READ) as LEN.
      destruct ps as [|p1 [|p2 [|p3 [|p4 [|p5 [|p6 [|]]]]]]]; try discriminate LEN. cbn in P3, P5. subst p4 p6.
      cbn in I, I'. rewrite I in I'. injection I' as <-. intros x Hx. apply HOLD, H, Hx.
    + exfalso. destruct (no_imm form); [|discriminate]. destruct (Nat.eqb (List.length form) 6) eqn:L6; [discriminate|].
      unfold without_imm in OK'. apply andb_true_iff in OK'. destruct OK' as [O1 O2].
      pose proof (integer_last _ _ _ _ _ O1 O2 READ) as IL. pose proof (read_items_length _ _ _ _ _ _ O1 READ) as LEN.
      assert (immediate_operand ps = last ps (PSym ",")) as X.
      { rewrite <- LEN in L6. clear - L6. destruct ps as [|p1 [|p2 [|p3 [|p4 [|p5 [|p6 [|p7 l]]]]]]]; try reflexivity; try discriminate L6.
        all: destruct p4 as [[[] [] [] [] [] [] [] []]| | | | | |]; try reflexivity.
        destruct p6 as [[[] [] [] [] [] [] [] []]| | | | | |]; reflexivity. }
      congruence.
Qed.

Theorem immediate_exact s ignore pc name ps out z w k : mips_assemble s ignore pc name ps = ROk out ->
  irregular (ms_arch s) name ps = false -> (x_words out = [w] \/ x_words out = [0; w]) ->
  immediate_kind (vfpu_unit (ms_arch s)) w = Some k -> integer (immediate_operand ps) = Some z ->
  match immediate_of name with
  | Plain => representable k z -> word_immediate k w = z
  | Negated => representable k (- z) -> word_immediate k w = - z
  | _ => True
  end.
Proof.
  intros A IR W K I. destruct (assemble_encodes _ _ _ _ _ _ A IR) as (w' & W' & EN).
  assert (w' = w) as -> by (destruct W as [W|W], W' as [W'|[W' _]]; rewrite W in W'; congruence).
  assert (F : forall v, (forall x, In x (slots_of k) -> holds w (x, v)) -> representable k v -> word_immediate k w = v).
  { intros v H R. destruct k; cbn [slots_of] in H; specialize (H _ (or_introl eq_refl)); unfold holds in H;
      cbn [fst snd f_pos f_len f_skip] in H; cbn [word_immediate representable] in *.
    - unfold w_simm, w_imm. rewrite H, s16_bits. apply s16_small. exact R.
    - unfold w_imm. rewrite H. apply bits_id; [lia|]. exact R.
    - unfold w_sa. rewrite H. apply bits_id; [lia|]. exact R. }
  destruct (immediate_of name) eqn:IM; try exact Logic.I.
  - apply F. intros x Hx. pose proof (encodes_immediate _ _ _ _ _ _ _ EN ltac:(rewrite IM; exact Logic.I) K I x Hx) as H. rewrite IM in H. exact H.
  - apply F. intros x Hx. pose proof (encodes_immediate _ _ _ _ _ _ _ EN ltac:(rewrite IM; exact Logic.I) K I x Hx) as H. rewrite IM in H. exact H.
Qed.

(** ** Instructions that share a word *)

Definition slice_mask (f : slice) : Z := Z.shiftl (Z.ones (f_len f)) (f_pos f).
Definition field_mask (form : list item) : Z := fold_right (fun f m => Z.lor (slice_mask f) m) 0 (flat_map item_fields form).
Definition good_slice (f : slice) : bool := (0 <=? f_pos f) && (0 <=? f_len f).
Lemma slice_mask_bit f k : good_slice f = true -> 0 <= k -> Z.testbit (slice_mask f) k = true -> inside k f.
Proof.
  unfold good_slice, slice_mask, inside. intros G K B. apply andb_true_iff in G. rewrite Z.shiftl_spec in B by lia.
  destruct (k - f_pos f <? 0) eqn:N; [rewrite Z.testbit_neg_r in B by lia; discriminate|].
  rewrite Z.testbit_ones_nonneg in B by lia. lia.
Qed.
Lemma field_mask_bit l k : forallb good_slice l = true -> 0 <= k ->
  Z.testbit (fold_right (fun f m => Z.lor (slice_mask f) m) 0 l) k = true -> exists f, In f l /\ inside k f.
Proof.
  intros G K. induction l as [|f l IH]; cbn [fold_right]; [rewrite Z.bits_0; discriminate|].
  cbn [forallb] in G. apply andb_true_iff in G. destruct G as [G1 G2]. rewrite Z.lor_spec. intros B. apply orb_true_iff in B.
  destruct B as [B|B].
  - exists f. split; [left; reflexivity|]. apply slice_mask_bit; assumption.
  - destruct (IH G2 B) as (g & H1 & H2). exists g. split; [right; exact H1|exact H2].
Qed.

Record shape := mkShape { h_name : string; h_base : Z; h_masks : list Z }.
Definition names_used (a : mips_arch) : list string :=
  flat_map (fun o => if row_available a o then map (fun x => fst (fst x)) (expansions (m_name o)) else []) MipsOpcodes.
Definition shapes (a : mips_arch) : list shape :=
  let u := names_used a in
  flat_map (fun i => if existsb (arch_eqb a) (n_on i) then
                       if mem (n_name i) u then [mkShape (n_name i) (n_base i) (map field_mask (n_forms i))] else [] else []) isa.
Definition may_share (x y : shape) : bool :=
  let d := Z.lxor (h_base x) (h_base y) in
  existsb (fun p => existsb (fun q => Z.land (Z.land (Z.ldiff d p) (Z.lnot q)) (Z.ones 32) =? 0) (h_masks y)) (h_masks x).
Definition pair_ok (known : string -> string -> bool) (x y : shape) : bool :=
  if String.eqb (h_name x) (h_name y) then true else if may_share x y then known (h_name x) (h_name y) else true.
Definition known_pair (a b : string) : bool := together synonyms a b || together vfpu_clashes a b.
Lemma shapes_ok : forallb (fun a => let l := shapes a in forallb (fun x => forallb (pair_ok known_pair x) l) l) cpus = true.
Proof. vm_compute. reflexivity. Qed.
Lemma slices_good : forallb (fun i => forallb (fun f => forallb good_slice (flat_map item_fields f)) (n_forms i)) isa = true.
Proof. vm_compute. reflexivity. Qed.

Lemma mem_in n l : In n l -> mem n l = true.
Proof. intros H. unfold mem. apply existsb_exists. exists n. split; [exact H|apply String.eqb_refl]. Qed.

Theorem words_distinct s1 s2 g1 g2 pc1 pc2 name1 name2 ps1 ps2 out1 out2 w :
  ms_arch s1 = ms_arch s2 ->
  mips_assemble s1 g1 pc1 name1 ps1 = ROk out1 -> irregular (ms_arch s1) name1 ps1 = false -> last (x_words out1) 0 = w ->
  mips_assemble s2 g2 pc2 name2 ps2 = ROk out2 -> irregular (ms_arch s2) name2 ps2 = false -> last (x_words out2) 0 = w ->
  name1 = name2 \/ together synonyms name1 name2 = true \/ together vfpu_clashes name1 name2 = true.
Proof.
  intros EA A1 I1 W1 A2 I2 W2.
  assert (G : forall s g pc name ps out, mips_assemble s g pc name ps = ROk out -> irregular (ms_arch s) name ps = false ->
    last (x_words out) 0 = w -> exists h m, In h (shapes (ms_arch s)) /\ h_name h = name /\ In m (h_masks h) /\
      forall k, 0 <= k < 32 -> Z.testbit m k = false -> Z.testbit w k = Z.testbit (h_base h) k).
  { intros s g pc name ps out A IR W. destruct (assemble_encodes _ _ _ _ _ _ A IR) as (w' & W' & EN).
    assert (w' = w) as -> by (destruct W' as [W'|[W' _]]; rewrite W' in W; cbn in W; congruence).
    destruct (assemble_row _ _ _ _ _ _ A) as (o & _ & _ & _ & _ & Ho & (sz & cc & IN) & AV & _).
    destruct EN as (ins & form & vals & INS & NAME & ON & FORM & READ & _ & _ & FIX).
    exists (mkShape (n_name ins) (n_base ins) (map field_mask (n_forms ins))), (field_mask form). split.
    - unfold shapes. apply in_flat_map. exists ins. split; [exact INS|].
      assert (existsb (arch_eqb (ms_arch s)) (n_on ins) = true) as ->.
      { apply existsb_exists. exists (ms_arch s). split; [exact ON|]. destruct (ms_arch s); reflexivity. }
      assert (mem (n_name ins) (names_used (ms_arch s)) = true) as ->.
      { apply mem_in. unfold names_used. apply in_flat_map. exists o. split; [exact Ho|]. rewrite AV, NAME.
        apply in_map_iff. exists (name, sz, cc). split; [reflexivity|exact IN]. }
      left. reflexivity.
    - split; [exact NAME|]. split; [apply in_map, FORM|]. intros k K M. cbn [h_base]. apply FIX; [exact K|].
      intros x Hx IX. pose proof slices_good as SG. rewrite forallb_forall in SG. specialize (SG _ INS). rewrite forallb_forall in SG.
      specialize (SG _ FORM). rewrite <- (form_fields_ok _ _ _ _ _ _ READ) in SG.
      assert (T : Z.testbit (field_mask form) k = true); [|congruence]. unfold field_mask.
      rewrite <- (form_fields_ok _ _ _ _ _ _ READ). clear - Hx IX K SG. induction vals as [|y vals IH]; [contradiction|].
      cbn [map fold_right forallb] in *. apply andb_true_iff in SG. destruct SG as [SG1 SG2]. rewrite Z.lor_spec. destruct Hx as [->|Hx].
      + apply orb_true_iff. left. unfold slice_mask. unfold inside in IX. unfold good_slice in SG1. rewrite Z.shiftl_spec by lia.
        rewrite Z.testbit_ones_nonneg by lia. lia.
      + rewrite IH; [apply orb_true_r|exact Hx|exact SG2]. }
  destruct (G _ _ _ _ _ _ A1 I1 W1) as (h1 & m1 & H1 & N1 & M1 & B1).
  destruct (G _ _ _ _ _ _ A2 I2 W2) as (h2 & m2 & H2 & N2 & M2 & B2). rewrite <- EA in H2.
  pose proof shapes_ok as OK. rewrite forallb_forall in OK. specialize (OK (ms_arch s1) ltac:(destruct (ms_arch s1); cbn; tauto)).
  cbv zeta in OK. rewrite forallb_forall in OK. specialize (OK _ H1). rewrite forallb_forall in OK. specialize (OK _ H2).
  unfold pair_ok in OK. rewrite N1, N2 in OK. destruct (String.eqb_spec name1 name2) as [E|]; [left; exact E|right].
  assert (MS : may_share h1 h2 = true); [|rewrite MS in OK; apply orb_true_iff, OK].
  unfold may_share. apply existsb_exists. exists m1. split; [exact M1|]. apply existsb_exists. exists m2. split; [exact M2|].
  apply Z.eqb_eq. apply Z.bits_inj'. intros k K. rewrite Z.bits_0, !Z.land_spec, Z.ldiff_spec, Z.lnot_spec, Z.lxor_spec by lia.
  destruct (k <? 32) eqn:K32.
  - destruct (Z.testbit m1 k) eqn:X1; [rewrite andb_false_r; reflexivity|]. destruct (Z.testbit m2 k) eqn:X2; [cbn; rewrite andb_false_r; reflexivity|].
    rewrite <- B1, <- B2 by (assumption || lia). rewrite xorb_nilpotent. reflexivity.
  - rewrite (Z.testbit_ones_nonneg 32 k) by lia. rewrite K32. apply andb_false_r.
Qed.
