(** The MIPS encoder against the instruction formats of MipsSpec. *)

Require Import ZArith Lia Bool List String Ascii.
Require Import ZifyBool.
Require Import Verif.Ints Verif.IntsLemmas Verif.BitFields Verif.Res Verif.ArmModel Verif.MipsTable Verif.MipsModel Verif.MipsSpec.
Import ListNotations.
Local Open Scope Z_scope.

(** ** Names *)

Definition same_names (t l : list (string * Z)) : bool :=
  forallb (fun x => match look_up l (fst x) with Some v => v =? snd x | None => false end) t &&
  forallb (fun x => match find_name t (fst x) with Some v => v =? snd x | None => false end) l.

Lemma find_name_in t s v : find_name t s = Some v -> In (s, v) t.
Proof.
  induction t as [|[n x] t IH]; cbn [find_name]; [discriminate|].
  destruct (String.eqb_spec s n) as [->|]; intros E; [injection E as ->; left; reflexivity|right; auto].
Qed.
Lemma look_up_in t s v : look_up t s = Some v -> In (s, v) t.
Proof.
  induction t as [|[n x] t IH]; cbn [look_up]; [discriminate|].
  destruct (String.eqb_spec n s) as [->|]; intros E; [injection E as ->; left; reflexivity|right; auto].
Qed.
Lemma same_names_eq t l : same_names t l = true -> forall s, find_name t s = look_up l s.
Proof.
  unfold same_names. rewrite andb_true_iff, !forallb_forall. intros [A B] s.
  destruct (find_name t s) as [v|] eqn:E.
  - apply find_name_in in E. apply A in E. cbn [fst snd] in E.
    destruct (look_up l s); [|discriminate]. f_equal. lia.
  - destruct (look_up l s) as [v|] eqn:F; [|reflexivity].
    apply look_up_in in F. apply B in F. cbn [fst snd] in F. rewrite E in F. discriminate.
Qed.

Definition kind_of (f : regfile) : regkind :=
  match f with
  | RfGpr => Gpr | RfFloat => Fpr | RfFpuControl => Fcr | RfCop0 => Cp0 | RfPs2 => Vf | RfPsxData => GteData
  | RfPsxControl => GteCtrl | RfRspCop0 => SpCp0 | RfRspVectorControl => SpVc | RfRspVector => SpV
  end.
Lemma regfile_names f s : find_name (regfile_table f) s = look_up (names_of (kind_of f)) s.
Proof. apply same_names_eq. destruct f; vm_compute; reflexivity. Qed.
Lemma parse_register_spec f p : parse_register f p = register (kind_of f) p.
Proof.
  destruct p; try reflexivity.
  - apply regfile_names.
  - cbn [parse_register register]. replace (dollar_ok (kind_of f)) with (regfile_numbers f) by (destruct f; reflexivity).
    destruct (regfile_numbers f); cbn [andb]; [|reflexivity].
    destruct (Z.ltb_spec (Z.of_N n) 32), (Z.leb_spec (Z.of_N n) 31); try reflexivity; lia.
Qed.
Lemma gpr_names s : find_name mipsRegisters s = look_up (names_of Gpr) s.
Proof. exact (regfile_names RfGpr s). Qed.
Lemma table_range t n : forallb (fun x : string * Z => (0 <=? snd x) && (snd x <? n)) t = true ->
  forall s v, find_name t s = Some v -> 0 <= v < n.
Proof.
  rewrite forallb_forall. intros H s v E. apply find_name_in in E. apply H in E. cbn [snd] in E. lia.
Qed.
Lemma parse_register_range f p v : parse_register f p = Some v -> 0 <= v < 32.
Proof.
  destruct p; cbn [parse_register]; try discriminate.
  - apply (table_range (regfile_table f) 32). destruct f; vm_compute; reflexivity.
  - destruct (regfile_numbers f && (Z.of_N n <? 32)) eqn:E; [|discriminate]. intros F. injection F as <-. lia.
Qed.

Lemma element_names s : find_name rspElementNames s = look_up broadcast s.
Proof. apply same_names_eq. vm_compute. reflexivity. Qed.
Lemma cc_names_eq s : find_name cop2Conditions s = look_up vfpu_cc s.
Proof. apply same_names_eq. vm_compute. reflexivity. Qed.
Lemma cond_names_eq s : find_name vfpuConditions s = look_up vfpu_cond s.
Proof. apply same_names_eq. vm_compute. reflexivity. Qed.
Lemma ctrl_names_eq s : find_name vfpuCtrlNames s = look_up vfpu_ctrl s.
Proof. apply same_names_eq. vm_compute. reflexivity. Qed.

(** ** VFPU registers *)

Lemma digit_value_spec c : decodeDigit c = digit_value c.
Proof. destruct c as [[] [] [] [] [] [] [] []]; vm_compute; reflexivity. Qed.

Definition small_digits := [0; 1; 2; 3; 4; 5; 6; 7; 8; 9].
Lemma decodeDigit_range c d : decodeDigit c = Some d -> In d small_digits.
Proof.
  unfold decodeDigit. set (n := Z.of_nat (nat_of_ascii c)). clearbody n.
  destruct ((48 <=? n) && (n <=? 57)) eqn:E; [|discriminate]. intros F. injection F as <-.
  unfold small_digits. cbn [In]. lia.
Qed.

(** [parse_vfpu] on the digits of a name. *)
Definition vfpu_number (size : Z) (m : ascii) (mtx col row : Z) : option (Z * bool) :=
  if (size <? 0) || (size >? 3) then None
  else if (row >? 3) || (col >? 3) || (mtx >? 7) then None
  else
    let vector col row num :=
      let done row := Some (Z.lor (Z.lor (Z.lor num (Z.shiftl mtx 2)) col) (Z.shiftl row 5), false) in
      if (size =? 1) || (size =? 3) then if Z.land row 1 =? 0 then done row else None
      else if size =? 2 then if Z.land row 2 =? 0 then done (Z.shiftl row 1) else None
      else None in
    let matrix num :=
      let done row := Some (Z.lor (Z.lor (Z.lor num (Z.shiftl mtx 2)) col) (Z.shiftl row 5), true) in
      if (size =? 1) || (size =? 3) then if Z.land row 1 =? 0 then done row else None
      else if size =? 2 then if row <=? 1 then done (Z.shiftl row 1) else None
      else None in
    if Ascii.eqb m "r" then vector row col 32
    else if Ascii.eqb m "c" then vector col row 0
    else if Ascii.eqb m "s" then
      if size =? 0 then Some (Z.lor (Z.lor (Z.shiftl mtx 2) col) (Z.shiftl row 5), false) else None
    else if Ascii.eqb m "e" then matrix 32
    else if Ascii.eqb m "m" then matrix 0
    else None.
Definition vfpu_number_spec (n : Z) (k : ascii) (matrix : bool) (m c r : Z) : option Z :=
  if (7 <? m) || (3 <? c) || (3 <? r) then None
  else
    let number base line at_ := match start n at_ with Some o => Some (base + 4 * m + line + o) | None => None end in
    match k, matrix with
    | "s"%char, false => if n =? 1 then number 0 c r else None
    | "c"%char, false => if n =? 1 then None else number 0 c r
    | "r"%char, false => if n =? 1 then None else number 32 r c
    | "m"%char, true => if n =? 1 then None else number 0 c r
    | "e"%char, true => if n =? 1 then None else number 32 c r
    | _, _ => None
    end.

Definition all_ascii : list ascii := map ascii_of_nat (seq 0 256).
Lemma all_ascii_in c : In c all_ascii.
Proof.
  unfold all_ascii. rewrite <- (ascii_nat_embedding c). apply in_map. apply in_seq.
  pose proof (nat_ascii_bounded c). lia.
Qed.
Definition opt_eqb (a b : option Z) : bool :=
  match a, b with Some x, Some y => x =? y | None, None => true | _, _ => false end.
Lemma opt_eqb_eq a b : opt_eqb a b = true -> a = b.
Proof. destruct a, b; cbn [opt_eqb]; intros E; try discriminate; [f_equal; lia|reflexivity]. Qed.
Definition vfpu_case (size : Z) (k : ascii) (m c r : Z) : bool :=
  match vfpu_number size k m c r with
  | Some (v, b) => opt_eqb (vfpu_number_spec (size + 1) k b m c r) (Some v) &&
                   opt_eqb (vfpu_number_spec (size + 1) k (negb b) m c r) None && (0 <=? v) && (v <? 128) &&
                   (negb b || negb (size =? 3) || (v <? 128))
  | None => opt_eqb (vfpu_number_spec (size + 1) k true m c r) None && opt_eqb (vfpu_number_spec (size + 1) k false m c r) None
  end.
(** The names that matter. *)
Definition vfpu_letters : list ascii := ["r"; "c"; "s"; "e"; "m"]%char.
Lemma vfpu_cases :
  forallb (fun size => forallb (fun k => forallb (fun m => forallb (fun c => forallb (vfpu_case size k m c) small_digits)
    small_digits) small_digits) vfpu_letters) [0; 1; 2; 3] = true.
Proof. vm_compute. reflexivity. Qed.
Lemma vfpu_letter_other size k m c r : ~ In k vfpu_letters -> vfpu_number size k m c r = None /\
  forall n b, vfpu_number_spec n k b m c r = None.
Proof.
  intros H. assert (N : forall x, In x vfpu_letters -> Ascii.eqb k x = false).
  { intros x Hx. destruct (Ascii.eqb_spec k x); [subst; contradiction|reflexivity]. }
  split.
  - unfold vfpu_number. rewrite !N by (cbn; tauto).
    destruct ((size <? 0) || (size >? 3)); [reflexivity|].
    destruct ((r >? 3) || (c >? 3) || (m >? 7)); reflexivity.
  - intros n b. unfold vfpu_number_spec. destruct ((7 <? m) || (3 <? c) || (3 <? r)); [reflexivity|].
    cbn zeta.
    destruct b; destruct k as [[] [] [] [] [] [] [] []]; try reflexivity;
      exfalso; apply H; unfold vfpu_letters; cbn [In]; tauto.
Qed.
Lemma vfpu_number_ok size k m c r : In size [0; 1; 2; 3] -> In m small_digits -> In c small_digits -> In r small_digits ->
  vfpu_case size k m c r = true.
Proof.
  intros Hs Hm Hc Hr. destruct (in_dec ascii_dec k vfpu_letters) as [Hk|Hk].
  - pose proof vfpu_cases as H. rewrite forallb_forall in H. specialize (H _ Hs).
    rewrite forallb_forall in H. specialize (H _ Hk). rewrite forallb_forall in H. specialize (H _ Hm).
    rewrite forallb_forall in H. specialize (H _ Hc). rewrite forallb_forall in H. exact (H _ Hr).
  - destruct (vfpu_letter_other size k m c r Hk) as [E F]. unfold vfpu_case. rewrite E, !F. reflexivity.
Qed.

Lemma parse_vfpu_spec size p v b : parse_vfpu size p = Some (v, b) ->
  vfpu_register (size + 1) b p = Some v /\ 0 <= v < 128.
Proof.
  destruct p as [|d s vv| | | | |]; try discriminate. destruct d; [discriminate|].
  destruct s as [|k s]; [discriminate|]. destruct s as [|c1 s]; [discriminate|].
  destruct s as [|c2 s]; [discriminate|]. destruct s as [|c3 s]; [discriminate|]. destruct s; [|discriminate].
  cbn [parse_vfpu vfpu_register]. rewrite <- !digit_value_spec.
  destruct (decodeDigit c1) as [m|] eqn:E1; [|discriminate]. destruct (decodeDigit c2) as [c|] eqn:E2; [|discriminate].
  destruct (decodeDigit c3) as [r|] eqn:E3; [|discriminate].
  apply decodeDigit_range in E1, E2, E3.
  change (vfpu_number size k m c r = Some (v, b) -> vfpu_number_spec (size + 1) k b m c r = Some v /\ 0 <= v < 128).
  intros E. assert (Hs : In size [0; 1; 2; 3]).
  { unfold vfpu_number in E. destruct ((size <? 0) || (size >? 3)) eqn:G; [discriminate|]. cbn [In]. lia. }
  pose proof (vfpu_number_ok size k m c r Hs E1 E2 E3) as H. unfold vfpu_case in H. rewrite E in H.
  rewrite !andb_true_iff in H. destruct H as [[[[H _] H1] H2] _]. split; [apply opt_eqb_eq, H|lia].
Qed.

(** ** Fields of the encoder *)

(** Where the encoder puts a register. *)
Definition slot_slices (o : mips_opcode) (x : slot) : list slice :=
  if mhas o MO_VFPU then
    match x with
    | vrd => [mkSlice 0 7 0] | vrs => [mkSlice 8 7 0] | vrt => [mkSlice 16 7 0] | grt => [mkSlice 16 5 0]
    | _ => []
    end
  else
    match x with
    | grs => [mkSlice 21 5 0] | grt => [mkSlice 16 5 0] | grd => [mkSlice 11 5 0]
    | frt => [mkSlice 16 5 0] | frs => [mkSlice 11 5 0] | frd => [mkSlice 6 5 0]
    | ps2vrt => [mkSlice 16 5 0] | ps2vrs => [mkSlice 21 5 0] | ps2vrd => [mkSlice 6 5 0]
    | rspvrt => [mkSlice 16 5 0] | rspvrs => [mkSlice 11 5 0] | rspvrd => [mkSlice 6 5 0]
    | rspve => [mkSlice 21 4 0] | rspvde => [mkSlice 11 4 0] | rspvealt => [mkSlice 7 4 0]
    | vrt => if mhas o MO_VFPU_MIXED then [mkSlice 0 (if mhas o MO_VFPU_6BIT then 1 else 2) 5; mkSlice 16 5 0]
             else [mkSlice 16 7 0]
    | vrs | vrd => []
    end.
(** The range of what the parser stores in a register. *)
Definition slot_bound (o : mips_opcode) (x : slot) : Z :=
  match x with
  | vrs | vrd => 128
  | vrt => if mhas o MO_VFPU_6BIT then 64 else 128
  | rspve | rspvde | rspvealt => 16
  | _ => 32
  end.
Definition primary_slices (o : mips_opcode) (t : imm_type) : list slice :=
  if mhas o MO_VFPU then
    match t with Immediate5 => [mkSlice 16 5 0] | Immediate7 => [mkSlice 0 7 0] | _ => [] end
  else
    match t with
    | Immediate5 => [mkSlice 6 5 0] | Immediate10 => [mkSlice 6 10 0] | Immediate20 => [mkSlice 6 20 0]
    | Immediate16 | ImmediateHalfFloat => if mhas o MO_IMMALIGNED then [mkSlice 2 14 2] else [mkSlice 0 16 0]
    | Immediate25 => [mkSlice 0 25 0] | Immediate26 => [mkSlice 0 26 0] | Immediate20_0 => [mkSlice 0 20 0]
    | Immediate7 => [mkSlice 0 7 0]
    | _ => []
    end.
Definition secondary_slices (o : mips_opcode) (t : imm_type) : list slice :=
  if mhas o MO_VFPU then []
  else match t with
       | CacheOp => [mkSlice 16 5 0] | Ext | Ins => [mkSlice 11 5 0] | Cop2BranchType => [mkSlice 18 3 0]
       | _ => []
       end.

(** The registers a flag copies a register to. *)
Definition copies (o : mips_opcode) (x : slot) : list slot :=
  match x with
  | grs => (if mhas o MO_RSD then [grd] else []) ++ (if mhas o MO_RST then [grt] else [])
  | grd => if mhas o MO_RDT then [grt] else []
  | frs => if mhas o MO_FRSD then [frd] else []
  | rspvrs => if mhas o MO_RSP_VRSD then [rspvrd] else []
  | _ => []
  end.

Definition tok_slot (t : tmpl) : option slot :=
  match t with
  | TReg _ x | TVfpu _ x | TMtx x | TElem x | TScalar x | TOffset x => Some x
  | TVctl => Some vrd
  | _ => None
  end.
Definition tok_slots (t : tmpl) : list slot := match tok_slot t with Some x => [x] | None => [] end.
Definition tok_slices (o : mips_opcode) (t : tmpl) : list slice :=
  match tok_slot t with
  | Some x => flat_map (slot_slices o) (x :: copies o x)
  | None =>
    match t with
    | TImm ty => primary_slices o ty
    | TVec w => primary_slices o (vec_type w)
    | TSec ty => secondary_slices o ty
    | TCond => if mhas o MO_VFPU then [mkSlice 0 4 0] else []
    | _ => []
    end
  end.
Definition tok_value (i : minst) (pv sv : Z) (t : tmpl) : Z :=
  match tok_slot t with
  | Some x => i_regs i x
  | None =>
    match t with
    | TImm _ | TVec _ => pv
    | TSec _ => sv
    | TCond => i_vcond i
    | _ => 0
    end
  end.
Definition tok_fields (o : mips_opcode) (i : minst) (pv sv : Z) (t : tmpl) : list (slice * Z) :=
  map (fun f => (f, tok_value i pv sv t)) (tok_slices o t).
Definition fields (o : mips_opcode) (i : minst) (pv sv : Z) : list (slice * Z) :=
  flat_map (tok_fields o i pv sv) (template (m_encoding o)).

(** ** The tokens of a template *)

Definition is_primary (t : tmpl) : bool := match t with TImm _ | TVec _ => true | _ => false end.
Definition is_secondary (t : tmpl) : bool := match t with TSec _ => true | _ => false end.
Definition is_cond (t : tmpl) : bool := match t with TCond => true | _ => false end.

(** Parsing leaves alone what its tokens do not name. *)
Record frame (ts : list tmpl) (i i' : minst) : Prop := {
  fr_regs : forall x, ~ In x (flat_map tok_slots ts) -> i_regs i' x = i_regs i x;
  fr_prim : existsb is_primary ts = false -> i_ptype i' = i_ptype i /\ i_pexp i' = i_pexp i /\ i_pval i' = i_pval i;
  fr_sec : existsb is_secondary ts = false -> i_stype i' = i_stype i /\ i_sexp i' = i_sexp i /\ i_sval i' = i_sval i;
  fr_cond : existsb is_cond ts = false -> i_vcond i' = i_vcond i;
  fr_size : i_vsize i' = i_vsize i }.

Lemma frame_refl ts i : frame ts i i.
Proof. split; auto. Qed.
Lemma set_reg_other r x v y : y <> x -> set_reg r x v y = r y.
Proof. unfold set_reg. destruct (slot_eq_dec y x); [contradiction|reflexivity]. Qed.
Lemma set_reg_same r x v : set_reg r x v x = v.
Proof. unfold set_reg. destruct (slot_eq_dec x x); [reflexivity|contradiction]. Qed.

Lemma parse_operand_frame o t i ps i' r : parse_operand o t i ps = Some (i', r) -> frame [t] i i'.
Proof.
  intros E.
  assert (R : forall x v, tok_slot t = Some x -> i' = set_regs i (set_reg (i_regs i) x v) -> frame [t] i i').
  { intros x v Hx ->. split; [|repeat split..].
    unfold tok_slots. cbn [flat_map]. rewrite Hx. intros y Hy. apply set_reg_other. intros ->. apply Hy. left. reflexivity. }
  destruct t; cbn [parse_operand] in E.
  - destruct ps as [|p r']; [discriminate|]. destruct (parse_register f p) as [v|]; [|discriminate].
    injection E as <- <-. eapply R; reflexivity.
  - destruct ps as [|p r']; [discriminate|]. destruct (parse_register RfGpr p) as [v|]; [|discriminate].
    destruct (v =? n); [|discriminate]. injection E as <- <-. apply frame_refl.
  - destruct ps as [|p r']; [discriminate|]. destruct (vfpu_actual sel (i_vsize i)) as [z|]; [|discriminate].
    destruct (parse_vfpu z p) as [[v []]|]; try discriminate.
    destruct (mhas o MO_VFPU_6BIT && negb (Z.land v 64 =? 0)); [discriminate|].
    injection E as <- <-. eapply R; reflexivity.
  - destruct ps as [|p r']; [discriminate|]. destruct (parse_vfpu_control p) as [v|]; [|discriminate].
    injection E as <- <-. eapply R; reflexivity.
  - destruct ps as [|p r']; [discriminate|]. destruct (parse_vfpu (i_vsize i) p) as [[v []]|]; try discriminate.
    injection E as <- <-. eapply R; reflexivity.
  - destruct (parse_vector_element ps) as [[v r']|]; [|discriminate]. injection E as <- <-. eapply R; reflexivity.
  - destruct (parse_scalar_element ps) as [[v r']|]; [|discriminate]. injection E as <- <-. eapply R; reflexivity.
  - destruct (parse_offset_element ps) as [[v r']|]; [|discriminate]. injection E as <- <-. eapply R; reflexivity.
  - destruct ps as [|p r']; [discriminate|]. destruct (parse_immediate p) as [v|]; [|discriminate].
    injection E as <- <-. split; cbn; auto. discriminate.
  - assert (S : forall a b c, i' = set_secondary i a b c -> frame [TSec t] i i').
    { intros a b c ->. split; cbn; auto. discriminate. }
    assert (G : match ps with
                | p :: r => match parse_immediate p with Some v => Some (set_secondary i t (Some v) (i_sval i), r) | None => None end
                | [] => None
                end = Some (i', r) -> frame [TSec t] i i').
    { destruct ps as [|p r']; [discriminate|]. destruct (parse_immediate p) as [v|]; [|discriminate].
      intros F. injection F as <- <-. eapply S. reflexivity. }
    destruct t; try exact (G E).
    destruct ps as [|p r']; [discriminate|]. destruct p as [|d s vv| |n hh| | |]; try discriminate.
    + destruct d; [discriminate|]. destruct (find_name cop2Conditions s) as [v|]; [|discriminate].
      injection E as <- <-. eapply S. reflexivity.
    + destruct (Z.of_N n <=? 5); [|discriminate]. injection E as <- <-. eapply S. reflexivity.
  - destruct ps as [|p r']; [discriminate|]. destruct p as [|d s vv| | | | |]; try discriminate.
    destruct d; [discriminate|]. destruct (find_name vfpuConditions s) as [v|]; [|discriminate].
    injection E as <- <-. split; cbn; auto. discriminate.
  - destruct ps as [|p r']; [discriminate|]. destruct p as [| | | | | |n]; try discriminate.
    destruct (vec_range w (Z.of_N n)); [|discriminate]. injection E as <- <-. split; cbn; auto. discriminate.
  - destruct ps as [|p r']; [discriminate|]. destruct p as [|d s vv| | | | |]; try discriminate.
    destruct d; [discriminate|]. destruct (String.eqb s "wb"); [|discriminate]. injection E as <- <-. apply frame_refl.
  - destruct ps as [|p r']; [discriminate|]. destruct p as [d| | | | | |]; try discriminate.
    destruct (Ascii.eqb c d); [|discriminate]. injection E as <- <-. apply frame_refl.
  - discriminate.
Qed.

Lemma frame_cons t ts i j i' : frame [t] i j -> frame ts j i' -> frame (t :: ts) i i'.
Proof.
  intros [A1 A2 A3 A4 A5] [B1 B2 B3 B4 B5]. split.
  - intros x H. cbn [flat_map] in H. rewrite in_app_iff in H. rewrite B1 by tauto. apply A1. cbn [flat_map].
    rewrite app_nil_r. tauto.
  - cbn [existsb] in *. rewrite orb_false_iff. intros [H1 H2]. rewrite H1 in A2. destruct (B2 H2) as (P1 & P2 & P3).
    destruct (A2 eq_refl) as (Q1 & Q2 & Q3). intuition congruence.
  - cbn [existsb] in *. rewrite orb_false_iff. intros [H1 H2]. rewrite H1 in A3. destruct (B3 H2) as (P1 & P2 & P3).
    destruct (A3 eq_refl) as (Q1 & Q2 & Q3). intuition congruence.
  - cbn [existsb] in *. rewrite orb_false_iff. intros [H1 H2]. rewrite H1 in A4. specialize (B4 H2).
    specialize (A4 eq_refl). congruence.
  - congruence.
Qed.
Lemma parse_operands_frame o ts : forall i ps i' r, parse_operands o ts i ps = Some (i', r) -> frame ts i i'.
Proof.
  induction ts as [|t ts IH]; cbn [parse_operands]; intros i ps i' r E.
  - injection E as <- <-. apply frame_refl.
  - destruct (parse_operand o t i ps) as [[j q]|] eqn:F; [|discriminate].
    eapply frame_cons; [eapply parse_operand_frame, F|eapply IH, E].
Qed.

(** ** Immediates *)

Definition flag_meaning (o : mips_opcode) : meaning :=
  if mhas o MO_NEGIMM then Negated
  else if mhas o MO_IPCA then Jump
  else if mhas o MO_IPCR then Branch
  else if mhas o rsp_offset_flags then Units (2 ^ rsp_shift o)
  else Plain.
Definition meaning_eqb (a b : meaning) : bool :=
  match a, b with
  | Plain, Plain | Negated, Negated | Branch, Branch | Jump, Jump => true
  | Units m, Units n => m =? n
  | _, _ => false
  end.
Lemma meaning_eqb_eq a b : meaning_eqb a b = true -> a = b.
Proof. destruct a, b; cbn [meaning_eqb]; intros E; try discriminate; try reflexivity. f_equal. lia. Qed.

Lemma s32_wrap x : exists k, s32 x = x + 4294967296 * k.
Proof. exists (s32 x / 4294967296 - x / 4294967296). pose proof (s32_mod x). lia. Qed.
Lemma rsp_shift_range o : 0 <= rsp_shift o <= 4.
Proof.
  unfold rsp_shift. destruct (mhas o MO_RSP_HWOFFSET), (mhas o MO_RSP_WOFFSET), (mhas o MO_RSP_DWOFFSET), (mhas o MO_RSP_QWOFFSET); lia.
Qed.

Lemma div_wrap x k n j : 0 <= n <= 4 -> 0 <= j -> (x + 4294967296 * k) / 2 ^ n = x / 2 ^ n + 2 ^ 26 * (4 * 2 ^ (4 - n) * k).
Proof.
  intros Hn Hj. replace 4294967296 with (2 ^ n * (2 ^ 26 * (4 * 2 ^ (4 - n)))).
  - rewrite <- !Z.mul_assoc. rewrite (Z.mul_comm (2 ^ n)), Z.div_add by lia. ring.
  - assert (C : n = 0 \/ n = 1 \/ n = 2 \/ n = 3 \/ n = 4) by lia.
    destruct C as [->|[->|[->|[->| ->]]]]; reflexivity.
Qed.

Lemma adjust_primary_value o pc z r : adjust_primary o pc (s32 z) = ROk r ->
  r mod 2 ^ 26 = meant (flag_meaning o) pc z mod 2 ^ 26.
Proof.
  unfold adjust_primary, flag_meaning. destruct (s32_wrap z) as [k K].
  destruct (mhas o MO_IMMALIGNED && negb (Z.rem (s32 z) 4 =? 0)); [discriminate|].
  destruct (mhas o MO_NEGIMM).
  { unfold neg_int. destruct (s32 z =? -2147483648); [discriminate|]. intros E. injection E as <-. cbn [meant].
    rewrite K. change (2 ^ 26) with 67108864. lia. }
  destruct (mhas o MO_IPCA).
  { intros E. injection E as <-. cbn [meant]. change 67108863 with (2 ^ 26 - 1). rewrite land_ones_mod by lia.
    rewrite Z.mod_mod by lia. rewrite Z.shiftr_div_pow2 by lia. rewrite K.
    change (z / 4) with (z / 2 ^ 2). rewrite (div_wrap z k 2 0) by lia.
    rewrite Z.mul_comm, Z.mod_add by lia. reflexivity. }
  destruct (mhas o MO_IPCR).
  { cbv zeta. destruct ((s32 (s32 z - pc - 4) >? 131072) || (s32 (s32 z - pc - 4) <? -131072)); [discriminate|].
    intros E. injection E as <-. cbn [meant]. rewrite Z.shiftr_div_pow2 by lia.
    destruct (s32_wrap (s32 z - pc - 4)) as [j J]. rewrite J, K.
    replace (z + 4294967296 * k - pc - 4 + 4294967296 * j) with ((z - (pc + 4)) + 4294967296 * (k + j)) by ring.
    change ((z - (pc + 4)) / 4) with ((z - (pc + 4)) / 2 ^ 2). rewrite (div_wrap _ (k + j) 2 0) by lia.
    rewrite Z.mul_comm, Z.mod_add by lia. reflexivity. }
  destruct (mhas o rsp_offset_flags).
  { destruct (negb (Z.land (s32 z) (Z.shiftl 1 (rsp_shift o) - 1) =? 0)); [discriminate|].
    intros E. injection E as <-. cbn [meant]. pose proof (rsp_shift_range o).
    rewrite Z.shiftr_div_pow2 by lia. rewrite K, (div_wrap z k (rsp_shift o) 0) by lia.
    rewrite Z.mul_comm, Z.mod_add by lia. reflexivity. }
  intros E. injection E as <-. cbn [meant]. rewrite K. change (2 ^ 26) with 67108864. lia.
Qed.

Definition primary_type (t : imm_type) : bool :=
  match t with INone | CacheOp | Ext | Ins | Cop2BranchType => false | _ => true end.
Lemma mask_primary_value t v pv : primary_type t = true -> mask_primary t v = ROk pv ->
  pv = v mod 2 ^ getImmediateBits t.
Proof.
  intros Ht. unfold mask_primary, abs_int. destruct (v =? -2147483648); [discriminate|]. cbn [rbind].
  assert (M : Z.shiftr (u32 (Z.shiftl 4294967295 (32 - getImmediateBits t))) (32 - getImmediateBits t) = 2 ^ getImmediateBits t - 1).
  { destruct t; try discriminate Ht; vm_compute; reflexivity. }
  rewrite M. destruct (Z.abs v >? 2 ^ getImmediateBits t - 1); [discriminate|]. intros E. injection E as <-.
  apply land_ones_mod. destruct t; cbn; lia.
Qed.
Lemma bits_width t : primary_type t = true -> 0 < getImmediateBits t <= 26.
Proof. destruct t; cbn; intros; try discriminate; lia. Qed.
Lemma bits_mod_eq x n lo len : 0 <= lo -> 0 <= len -> lo + len <= n -> bits (x mod 2 ^ n) lo len = bits x lo len.
Proof. intros. apply (bits_eq_mod _ _ lo len n); try lia. apply Z.mod_mod. apply Z.pow_nonzero; lia. Qed.

(** What a validated primary immediate is. *)
Lemma validate_primary_range o pc i pv : primary_type (i_ptype i) = true -> validate_primary o pc i = ROk pv ->
  0 <= pv < 2 ^ getImmediateBits (i_ptype i) /\ (mhas o MO_IMMALIGNED = true -> flag_meaning o = Plain -> pv mod 4 = 0).
Proof.
  intros Ht E. unfold validate_primary in E.
  destruct (i_ptype i) eqn:T; try discriminate Ht;
  (apply rbind_ok in E; destruct E as (v & E1 & E); apply rbind_ok in E; destruct E as (w & E2 & E3);
   apply mask_primary_value in E3; [|reflexivity]; subst pv;
   split; [apply Z.mod_pos_bound; cbn; lia|];
   intros HA HP; unfold adjust_primary in E2; rewrite HA in E2; cbn [andb] in E2;
   destruct (Z.eqb_spec (Z.rem v 4) 0) as [R|]; [|discriminate E2]; cbn [negb] in E2;
   assert (W : w = v) by
     (unfold flag_meaning in HP; destruct (mhas o MO_NEGIMM); [discriminate|];
      destruct (mhas o MO_IPCA); [discriminate|]; destruct (mhas o MO_IPCR); [discriminate|];
      destruct (mhas o rsp_offset_flags); [discriminate|]; injection E2 as <-; reflexivity);
   subst w; assert (R' : v mod 4 = 0) by (apply Z.rem_divide in R; [|lia]; apply Z.mod_divide; [lia|assumption]);
   cbn [getImmediateBits];
   match goal with |- (v mod 2 ^ ?n) mod 4 = 0 =>
     let m := eval vm_compute in (2 ^ n) in change (2 ^ n) with m; clear - R'; lia end).
Qed.

Lemma validate_primary_int o pc i pv e : primary_type (i_ptype i) = true -> i_ptype i <> ImmediateHalfFloat ->
  i_pexp i = Some e -> validate_primary o pc i = ROk pv ->
  exists z h, e = VInt z h /\
    forall lo len, 0 <= lo -> 0 <= len -> lo + len <= getImmediateBits (i_ptype i) ->
      bits pv lo len = bits (meant (flag_meaning o) pc z) lo len.
Proof.
  intros Ht Hh He E. unfold validate_primary in E. rewrite He in E.
  destruct (imm_type_eq_dec (i_ptype i) ImmediateHalfFloat) as [|_]; [contradiction|].
  assert (E' : (do v <- evaluate_int e; do w <- adjust_primary o pc v; mask_primary (i_ptype i) w) = ROk pv)
    by (destruct (i_ptype i); try discriminate Ht; try exact E; congruence).
  clear E. apply rbind_ok in E'. destruct E' as (v & E1 & E). apply rbind_ok in E. destruct E as (w & E2 & E3).
  destruct e as [z h| |]; try discriminate E1. injection E1 as <-. exists z, h. split; [reflexivity|].
  intros lo len Hlo Hlen Hb. pose proof (bits_width _ Ht). apply mask_primary_value in E3; [|assumption]. subst pv.
  rewrite bits_mod_eq by lia. apply (bits_eq_mod _ _ lo len 26); try lia. apply (adjust_primary_value _ _ _ _ E2).
Qed.

Definition half_of (e : mval) : option Z := match e with VInt _ h | VFloat h => Some h | VBad => None end.
Lemma adjust_plain o pc v w : flag_meaning o = Plain -> adjust_primary o pc v = ROk w -> w = v.
Proof.
  intros HP E. unfold adjust_primary in E. destruct (mhas o MO_IMMALIGNED && negb (Z.rem v 4 =? 0)); [discriminate|].
  unfold flag_meaning in HP. destruct (mhas o MO_NEGIMM); [discriminate|].
  destruct (mhas o MO_IPCA); [discriminate|]. destruct (mhas o MO_IPCR); [discriminate|].
  destruct (mhas o rsp_offset_flags); [discriminate|]. injection E as <-. reflexivity.
Qed.
Lemma s32_bits x lo len : 0 <= lo -> 0 <= len -> lo + len <= 32 -> bits (s32 x) lo len = bits x lo len.
Proof.
  intros. apply (bits_eq_mod _ _ lo len 32); try lia. destruct (s32_wrap x) as [k ->].
  change (2 ^ 32) with 4294967296. rewrite Z.mul_comm, Z.mod_add by lia. reflexivity.
Qed.
Lemma validate_primary_half o pc i pv e : i_ptype i = ImmediateHalfFloat -> flag_meaning o = Plain ->
  i_pexp i = Some e -> validate_primary o pc i = ROk pv ->
  exists h, half_of e = Some h /\ forall lo len, 0 <= lo -> 0 <= len -> lo + len <= 16 -> bits pv lo len = bits h lo len.
Proof.
  intros Ht HP He E. unfold validate_primary in E. rewrite Ht, He in E.
  destruct (imm_type_eq_dec ImmediateHalfFloat ImmediateHalfFloat) as [_|C]; [|contradiction].
  apply rbind_ok in E. destruct E as (v & E1 & E). apply rbind_ok in E. destruct E as (w & E2 & E3).
  apply adjust_plain in E2; [|assumption]. subst w. apply mask_primary_value in E3; [|reflexivity]. subst pv.
  assert (H : exists h, half_of e = Some h /\ v = s32 h).
  { destruct e; try discriminate E1; injection E1 as <-; eexists; split; reflexivity. }
  destruct H as (h & H & ->). exists h. split; [assumption|]. intros. rewrite bits_mod_eq by (cbn; lia).
  apply s32_bits; lia.
Qed.
Lemma validate_primary_set o pc i pv : primary_type (i_ptype i) = true -> flag_meaning o = Plain ->
  i_pexp i = None -> validate_primary o pc i = ROk pv ->
  forall lo len, 0 <= lo -> 0 <= len -> lo + len <= getImmediateBits (i_ptype i) -> bits pv lo len = bits (i_pval i) lo len.
Proof.
  intros Ht HP He E lo len Hlo Hlen Hb. unfold validate_primary in E. rewrite He in E.
  assert (E' : (do w <- adjust_primary o pc (i_pval i); mask_primary (i_ptype i) w) = ROk pv)
    by (destruct (i_ptype i); try discriminate Ht; exact E).
  apply rbind_ok in E'. destruct E' as (w & E2 & E3). apply adjust_plain in E2; [|assumption]. subst w.
  apply mask_primary_value in E3; [|assumption]. subst pv. apply bits_mod_eq; lia.
Qed.

(** Secondary immediates. *)
Lemma validate_secondary_int i pv sv e : i_sexp i = Some e -> validate_secondary i pv = ROk sv ->
  match i_stype i with
  | CacheOp => exists z h, e = VInt z h /\ sv = s32 z /\ 0 <= sv < 32
  | Ext => exists z h, e = VInt z h /\ sv = s32 z - 1 /\ sv < 32
  | Ins => exists z h, e = VInt z h /\ sv = s32 z - 1 + pv
  | _ => True
  end.
Proof.
  intros He E. unfold validate_secondary in E. rewrite He in E.
  destruct (i_stype i); trivial;
  apply rbind_ok in E; destruct E as (v & E1 & E);
  (destruct e as [z h| |]; try discriminate E1); injection E1 as <-; exists z, h; (split; [reflexivity|]).
  - destruct (u32 (s32 z) >? 31) eqn:G; [discriminate|]. injection E as <-. split; [reflexivity|].
    unfold u32 in G. pose proof (s32_range z). lia.
  - destruct ((s32 z >? 32) || (s32 z =? 0)) eqn:G; [discriminate|].
    destruct (s32 z =? -2147483648); [discriminate|]. injection E as <-. split; [reflexivity|]. lia.
  - destruct ((s32 z >? 32) || (s32 z =? 0)) eqn:G; [discriminate|].
    destruct (s32 z =? -2147483648); [discriminate|]. injection E as <-. reflexivity.
Qed.
Lemma validate_secondary_set i pv sv : i_sexp i = None -> i_stype i = Cop2BranchType -> validate_secondary i pv = ROk sv ->
  sv = i_sval i.
Proof. intros He Ht E. unfold validate_secondary in E. rewrite He, Ht in E. cbn [rbind] in E. injection E as <-. reflexivity. Qed.

(** ** Tokens and items *)

Definition slice_eqb (a b : slice) : bool := (f_pos a =? f_pos b) && (f_len a =? f_len b) && (f_skip a =? f_skip b).
Lemma slice_eqb_eq a b : slice_eqb a b = true -> a = b.
Proof. destruct a as [p l s], b as [p2 l2 s2]. unfold slice_eqb. cbn [f_pos f_len f_skip]. rewrite !andb_true_iff. intros [[]]. f_equal; lia. Qed.
Fixpoint slices_eqb (a b : list slice) : bool :=
  match a, b with
  | [], [] => true
  | x :: a, y :: b => slice_eqb x y && slices_eqb a b
  | _, _ => false
  end.
Lemma slices_eqb_eq a : forall b, slices_eqb a b = true -> a = b.
Proof.
  induction a as [|x a IH]; intros [|y b]; cbn [slices_eqb]; try discriminate; [reflexivity|].
  rewrite andb_true_iff. intros [H1 H2]. f_equal; [apply slice_eqb_eq, H1|apply IH, H2].
Qed.
Definition kind_eqb (a b : regkind) : bool :=
  match a, b with
  | Gpr, Gpr | Fpr, Fpr | Fcr, Fcr | Cp0, Cp0 | Vf, Vf | GteData, GteData | GteCtrl, GteCtrl | SpCp0, SpCp0
  | SpVc, SpVc | SpV, SpV => true
  | _, _ => false
  end.
Lemma kind_eqb_eq a b : kind_eqb a b = true -> a = b.
Proof. destruct a, b; cbn; intros; try discriminate; reflexivity. Qed.
Definition vecarg_eqb (a b : vecarg) : bool :=
  match a, b with WPfxs, WPfxs | WPfxd, WPfxd | WCst, WCst | WRot, WRot => true | _, _ => false end.
Lemma vecarg_eqb_eq a b : vecarg_eqb a b = true -> a = b.
Proof. destruct a, b; cbn; intros; try discriminate; reflexivity. Qed.

Definition slice_within (n : Z) (f : slice) : bool := (0 <=? f_skip f) && (0 <=? f_len f) && (f_skip f + f_len f <=? n).
Definition the_elements (name : string) (s : vscale) : option Z :=
  match elements name with Some n => scaled s n | None => None end.
Definition plus1 (x : option Z) : option Z := match x with Some v => Some (v + 1) | None => None end.
Definition is_vrs (x : slot) : bool := match x with vrs => true | _ => false end.
Definition item_slices (it : item) : list slice :=
  match it with
  | Reg _ f | Vec _ f | Vec6 f | Ctl f | Mat f | MatT f | Elem f | Scalar f | Offset f | Imm f | Code f | HalfFloat f
  | Size f | Msb f | Cc f | Cond f | Arg _ f => f
  | Zero | Wb | Punct _ => []
  end.

Definition tok_item_ok (o : mips_opcode) (size : Z) (name : string) (t : tmpl) (it : item) : bool :=
  slices_eqb (item_slices it) (tok_slices o t) &&
  match t, it with
  | TReg f x, Reg k _ => kind_eqb (kind_of f) k
  | TForced n, Zero => n =? 0
  | TVfpu sel x, Vec s _ =>
    opt_eqb (plus1 (vfpu_actual sel size)) (the_elements name s) && negb (mhas o MO_VFPU_6BIT)
  | TVfpu sel x, Vec6 _ => opt_eqb (vfpu_actual sel size) (Some 3) && mhas o MO_VFPU_6BIT
  | TVctl, Ctl _ => true
  | TMtx x, Mat _ => opt_eqb (Some (size + 1)) (the_elements name Same) && negb (is_vrs x && mhas o MO_VFPU_TRANSPOSE_VS)
  | TMtx x, MatT _ => opt_eqb (Some (size + 1)) (the_elements name Same) && (is_vrs x && mhas o MO_VFPU_TRANSPOSE_VS)
  | TElem _, Elem _ | TScalar _, Scalar _ | TOffset _, Offset _ => true
  | TImm ImmediateHalfFloat, HalfFloat f => meaning_eqb (flag_meaning o) Plain && forallb (slice_within 16) f
  | TImm ImmediateHalfFloat, _ => false
  | TImm ty, Imm f => meaning_eqb (flag_meaning o) (immediate_of name) && primary_type ty &&
                      forallb (slice_within (getImmediateBits ty)) f
  | TSec CacheOp, Code f => forallb (slice_within 5) f
  | TSec Ext, Size f => forallb (slice_within 5) f
  | TSec Ins, Msb f => meaning_eqb (flag_meaning o) Plain && forallb (slice_within 5) f
  | TSec Cop2BranchType, Cc f => true
  | TCond, Cond _ => true
  | TVec w, Arg w' f => vecarg_eqb w w' && meaning_eqb (flag_meaning o) Plain &&
                        forallb (slice_within (getImmediateBits (vec_type w))) f
  | TWb, Wb => true
  | TSym c, Punct d => Ascii.eqb c d
  | _, _ => false
  end.
Fixpoint tokens_items_ok (o : mips_opcode) (size : Z) (name : string) (ts : list tmpl) (its : list item) : bool :=
  match ts, its with
  | [], [] => true
  | t :: ts, it :: its => tok_item_ok o size name t it && tokens_items_ok o size name ts its
  | _, _ => false
  end.

Definition is_ins (t : tmpl) : bool := match t with TSec Ins => true | _ => false end.
Definition only_imm5 (t : tmpl) : bool := match t with TImm Immediate5 => true | TImm _ | TVec _ => false | _ => true end.
(** No register is given twice, there is one immediate of each kind, and the position of ins comes first. *)
Fixpoint order_ok (ts : list tmpl) : bool :=
  match ts with
  | [] => true
  | t :: r =>
    forallb (fun x => negb (existsb (fun y => if slot_eq_dec x y then true else false) (flat_map tok_slots r))) (tok_slots t) &&
    negb (is_primary t && existsb is_primary r) && negb (is_secondary t && existsb is_secondary r) &&
    negb (is_cond t && existsb is_cond r) &&
    implb (is_ins t) (negb (existsb is_primary r)) &&
    implb (existsb is_ins r) (only_imm5 t) &&
    order_ok r
  end.

Definition agree (v v' : Z) (f : slice) : Prop := bits v (f_skip f) (f_len f) = bits v' (f_skip f) (f_len f).

(** What remains true until the end of the parse about the token that was just read. *)
Record settled (t : tmpl) (j i' : minst) : Prop := {
  se_reg : forall x, tok_slot t = Some x -> i_regs i' x = i_regs j x;
  se_prim : is_primary t = true -> i_ptype i' = i_ptype j /\ i_pexp i' = i_pexp j /\ i_pval i' = i_pval j;
  se_sec : is_secondary t = true -> i_stype i' = i_stype j /\ i_sexp i' = i_sexp j /\ i_sval i' = i_sval j;
  se_cond : is_cond t = true -> i_vcond i' = i_vcond j }.

Lemma Forall_agree_refl v l : Forall (agree v v) l.
Proof. apply Forall_forall. intros. reflexivity. Qed.
Lemma within_agree n v v' l : (forall lo len, 0 <= lo -> 0 <= len -> lo + len <= n -> bits v lo len = bits v' lo len) ->
  forallb (slice_within n) l = true -> Forall (agree v v') l.
Proof.
  intros H L. rewrite forallb_forall in L. apply Forall_forall. intros f Hf. apply L in Hf.
  unfold slice_within in Hf. apply H; lia.
Qed.
Lemma parse_immediate_int p e z h : parse_immediate p = Some e -> e = VInt z h -> integer p = Some z.
Proof.
  destruct p as [|d s vv| |n hh|vv| |]; cbn [parse_immediate integer]; try discriminate.
  - rewrite gpr_names. destruct (look_up (names_of Gpr) s); [discriminate|]. destruct d; [discriminate|].
    intros E F. injection E as ->. subst e. reflexivity.
  - intros E F. injection E as <-. injection F as <- <-. reflexivity.
  - intros E F. injection E as ->. subst e. reflexivity.
Qed.
Lemma parse_immediate_half p e h : parse_immediate p = Some e -> half_of e = Some h -> half p = Some h.
Proof.
  destruct p as [|d s vv| |n hh|vv| |]; cbn [parse_immediate half]; try discriminate.
  - rewrite gpr_names. destruct (look_up (names_of Gpr) s); [discriminate|]. destruct d; [discriminate|].
    intros E F. injection E as ->. destruct e; try discriminate F; injection F as ->; reflexivity.
  - intros E F. injection E as <-. exact F.
  - intros E F. injection E as ->. destruct e; try discriminate F; injection F as ->; reflexivity.
Qed.
Lemma mod32_bits a b lo len : a mod 32 = b mod 32 -> 0 <= lo -> 0 <= len -> lo + len <= 5 -> bits a lo len = bits b lo len.
Proof. intros. apply (bits_eq_mod _ _ lo len 5); try lia. Qed.

Lemma lxor_32 v : 0 <= v < 128 -> Z.lxor v 32 = (if Z.testbit v 5 then v - 32 else v + 32).
Proof.
  intros H. assert (C : forallb (fun k => Z.lxor (Z.of_nat k) 32 =? (if Z.testbit (Z.of_nat k) 5 then Z.of_nat k - 32 else Z.of_nat k + 32)) (seq 0 128) = true)
    by (vm_compute; reflexivity).
  rewrite forallb_forall in C. specialize (C (Z.to_nat v)). rewrite Z2Nat.id in C by lia.
  apply Z.eqb_eq, C. apply in_seq. lia.
Qed.
Lemma land_64 v : 0 <= v < 128 -> (Z.land v 64 =? 0) = (v <? 64).
Proof.
  intros H. assert (C : forallb (fun k => Bool.eqb (Z.land (Z.of_nat k) 64 =? 0) (Z.of_nat k <? 64)) (seq 0 128) = true)
    by (vm_compute; reflexivity).
  rewrite forallb_forall in C. specialize (C (Z.to_nat v)). rewrite Z2Nat.id in C by lia.
  apply Bool.eqb_prop, C. apply in_seq. lia.
Qed.

Section Token.
Variables (o : mips_opcode) (name : string) (pc pv sv : Z).

Definition has_pos (prim : Z) (i : minst) : Prop := exists h, i_pexp i = Some (VInt prim h) /\ i_ptype i = Immediate5.

Lemma token_sound t it prim i ps j r i' :
  parse_operand o t i ps = Some (j, r) -> settled t j i' ->
  tok_item_ok o (i_vsize i) name t it = true ->
  (is_primary t = true -> i_pexp i = None) -> (is_secondary t = true -> i_sexp i = None) ->
  (is_ins t = true -> exists h, i_pexp i' = Some (VInt prim h) /\ i_ptype i' = Immediate5) ->
  validate_primary o pc i' = ROk pv -> validate_secondary i' pv = ROk sv ->
  exists v, read_item name pc prim it ps = Some (fill (item_slices it) v, r) /\
            Forall (agree v (tok_value i' pv sv t)) (item_slices it).
Proof.
  intros E [SR SP SS SC] OK NP NS HI VP VS. unfold tok_item_ok in OK. apply andb_true_iff in OK. destruct OK as [_ OK].
  assert (REG : forall x v, tok_slot t = Some x -> j = set_regs i (set_reg (i_regs i) x v) -> tok_value i' pv sv t = v).
  { intros x v Hx ->. unfold tok_value. rewrite Hx, (SR x Hx). cbn [i_regs set_regs]. apply set_reg_same. }
  destruct t; cbn [parse_operand] in E.
  - (* registers *)
    destruct it; try discriminate OK. apply kind_eqb_eq in OK. subst k.
    destruct ps as [|p r']; [discriminate|]. destruct (parse_register f p) as [v|] eqn:P; [|discriminate].
    injection E as <- <-. exists v. rewrite (REG x v eq_refl eq_refl). split; [|apply Forall_agree_refl].
    cbn [read_item first item_slices]. rewrite <- parse_register_spec, P. reflexivity.
  - (* r0 *)
    destruct it; try discriminate OK.
    destruct ps as [|p r']; [discriminate|]. destruct (parse_register RfGpr p) as [v|] eqn:P; [|discriminate].
    destruct (Z.eqb_spec v n) as [->|]; [|discriminate]. injection E as <- <-. apply Z.eqb_eq in OK. subst n.
    exists 0. split; [|constructor]. cbn [read_item first item_slices]. rewrite parse_register_spec in P.
    cbn [kind_of] in P. rewrite P. reflexivity.
  - (* VFPU vectors *)
    destruct ps as [|p r']; [discriminate|]. destruct (vfpu_actual sel (i_vsize i)) as [z|] eqn:A; [|discriminate].
    destruct (parse_vfpu z p) as [[v []]|] eqn:P; try discriminate.
    destruct (mhas o MO_VFPU_6BIT && negb (Z.land v 64 =? 0)) eqn:B; [discriminate|].
    injection E as <- <-. apply parse_vfpu_spec in P. destruct P as [P R].
    exists v. rewrite (REG x v eq_refl eq_refl). split; [|apply Forall_agree_refl].
    destruct it; try discriminate OK.
    + apply andb_true_iff in OK. destruct OK as [OK _]. apply opt_eqb_eq in OK. cbn [plus1] in OK. unfold the_elements in OK.
      cbn [read_item first item_slices]. destruct (elements name) as [n|]; [|discriminate OK]. rewrite <- OK, P. reflexivity.
    + apply andb_true_iff in OK. destruct OK as [OK B6]. apply opt_eqb_eq in OK. injection OK as ->. rewrite B6 in B.
      cbn [andb] in B. rewrite land_64 in B by assumption. cbn [read_item first item_slices]. change (3 + 1) with 4 in P.
      rewrite P. destruct (v <? 64); [reflexivity|discriminate B].
  - (* VFPU control registers *)
    destruct it; try discriminate OK.
    destruct ps as [|p r']; [discriminate|]. destruct (parse_vfpu_control p) as [v|] eqn:P; [|discriminate].
    injection E as <- <-. exists v. rewrite (REG vrd v eq_refl eq_refl). split; [|apply Forall_agree_refl].
    cbn [read_item first item_slices]. destruct p as [|d s vv| |n hh| | |]; try discriminate P.
    + destruct d; [discriminate|]. cbn [parse_vfpu_control] in P. rewrite <- ctrl_names_eq, P. reflexivity.
    + cbn [parse_vfpu_control] in P.
      destruct (Z.leb_spec (Z.of_N n) 15), (Z.ltb_spec (Z.of_N n) 16); try lia; try discriminate P.
      injection P as <-. reflexivity.
  - (* matrices *)
    destruct ps as [|p r']; [discriminate|]. destruct (parse_vfpu (i_vsize i) p) as [[v []]|] eqn:P; try discriminate.
    injection E as <- <-. apply parse_vfpu_spec in P. destruct P as [P R].
    eexists. rewrite (REG x _ eq_refl eq_refl). split; [|apply Forall_agree_refl].
    destruct it; try discriminate OK; apply andb_true_iff in OK; destruct OK as [OK T]; apply opt_eqb_eq in OK;
      unfold the_elements in OK; cbn [read_item first item_slices]; (destruct (elements name) as [n|]; [|discriminate OK]);
      rewrite <- OK, P.
    + destruct x; try reflexivity. cbn [is_vrs andb] in T. destruct (mhas o MO_VFPU_TRANSPOSE_VS); [discriminate T|reflexivity].
    + destruct x; try discriminate T. cbn [is_vrs andb] in T. rewrite T, lxor_32 by assumption. reflexivity.
  - (* RSP elements *)
    destruct it; try discriminate OK.
    destruct (parse_vector_element ps) as [[v r']|] eqn:P; [|discriminate]. injection E as <- <-.
    exists v. rewrite (REG x v eq_refl eq_refl). split; [|apply Forall_agree_refl].
    cbn [read_item item_slices]. unfold parse_vector_element in P.
    destruct ps as [|[| | | | |[n|tx n]|] ps]; try (injection P as <- <-; reflexivity).
    + destruct (Z.of_N n <? 16); [|discriminate]. injection P as <- <-. reflexivity.
    + rewrite <- element_names. destruct (find_name rspElementNames tx); [|discriminate]. injection P as <- <-. reflexivity.
  - destruct it; try discriminate OK.
    destruct (parse_scalar_element ps) as [[v r']|] eqn:P; [|discriminate]. injection E as <- <-.
    exists v. rewrite (REG x v eq_refl eq_refl). split; [|apply Forall_agree_refl].
    cbn [read_item item_slices]. unfold parse_scalar_element in P.
    destruct ps as [|[| | | | |[n|tx [n|]]|] ps]; try discriminate P.
    destruct (Z.of_N n <? 8); [|discriminate]. injection P as <- <-. rewrite (Z.add_comm 8). reflexivity.
  - destruct it; try discriminate OK.
    destruct (parse_offset_element ps) as [[v r']|] eqn:P; [|discriminate]. injection E as <- <-.
    exists v. rewrite (REG x v eq_refl eq_refl). split; [|apply Forall_agree_refl].
    cbn [read_item item_slices]. unfold parse_offset_element in P.
    destruct ps as [|[| | | | |[n|tx [n|]]|] ps]; try discriminate P; try (injection P as <- <-; reflexivity).
    destruct (Z.of_N n <? 16); [|discriminate]. injection P as <- <-. reflexivity.
  - (* primary immediate *)
    destruct ps as [|p r']; [discriminate|]. destruct (parse_immediate p) as [e|] eqn:P; [|discriminate].
    injection E as <- <-. destruct (SP eq_refl) as (T1 & T2 & _). cbn [i_ptype i_pexp set_primary] in T1, T2.
    change (tok_value i' pv sv (TImm t)) with pv.
    destruct (imm_type_eq_dec t ImmediateHalfFloat) as [->|NH].
    + destruct it; try discriminate OK. apply andb_true_iff in OK. destruct OK as [M W]. apply meaning_eqb_eq in M.
      destruct (validate_primary_half _ _ _ _ _ T1 M T2 VP) as (h & H1 & H2). exists h.
      cbn [read_item first item_slices]. rewrite (parse_immediate_half _ _ _ P H1). split; [reflexivity|].
      apply (within_agree 16); [|assumption]. intros. symmetry. apply H2; lia.
    + destruct it; try (destruct t; congruence).
      assert (OK' : meaning_eqb (flag_meaning o) (immediate_of name) && primary_type t &&
                    forallb (slice_within (getImmediateBits t)) f = true) by (destruct t; try exact OK; congruence).
      rewrite !andb_true_iff in OK'. destruct OK' as [[M PT] W]. apply meaning_eqb_eq in M.
      rewrite <- T1 in PT. assert (NH' : i_ptype i' <> ImmediateHalfFloat) by congruence.
      destruct (validate_primary_int _ _ _ _ _ PT NH' T2 VP) as (z & h & H1 & H2).
      exists (meant (immediate_of name) pc z). cbn [read_item first item_slices].
      rewrite (parse_immediate_int _ _ _ _ P H1). split; [reflexivity|]. rewrite <- M.
      apply (within_agree (getImmediateBits t)); [|assumption]. rewrite <- T1. intros. symmetry. apply H2; lia.
  - (* secondary immediate *)
    change (tok_value i' pv sv (TSec t)) with sv.
    assert (G : t <> Cop2BranchType -> exists p e, ps = p :: r /\ parse_immediate p = Some e /\ i_stype i' = t /\ i_sexp i' = Some e).
    { intros Ht. destruct (SS eq_refl) as (T1 & T2 & _).
      assert (E' : match ps with
                | p :: r => match parse_immediate p with Some v => Some (set_secondary i t (Some v) (i_sval i), r) | None => None end
                | [] => None
                end = Some (j, r)) by (destruct t; try exact E; congruence).
      destruct ps as [|p r']; [discriminate|]. destruct (parse_immediate p) as [e|] eqn:P; [|discriminate].
      injection E' as <- <-. exists p, e. cbn [i_stype i_sexp set_secondary] in T1, T2. auto. }
    destruct t; try discriminate OK; destruct it; try discriminate OK.
    + destruct G as (p & e & -> & P & T1 & T2); [discriminate|].
      pose proof (validate_secondary_int _ _ _ _ T2 VS) as V. rewrite T1 in V. destruct V as (z & h & H1 & H2 & _).
      exists z. cbn [read_item first item_slices]. rewrite (parse_immediate_int _ _ _ _ P H1). split; [reflexivity|].
      apply (within_agree 5); [|assumption]. intros. subst sv. symmetry. apply s32_bits; lia.
    + destruct G as (p & e & -> & P & T1 & T2); [discriminate|].
      pose proof (validate_secondary_int _ _ _ _ T2 VS) as V. rewrite T1 in V. destruct V as (z & h & H1 & H2 & _).
      exists (z - 1). cbn [read_item first item_slices]. rewrite (parse_immediate_int _ _ _ _ P H1). split; [reflexivity|].
      apply (within_agree 5); [|assumption]. intros. subst sv. apply mod32_bits; try lia.
      destruct (s32_wrap z) as [k ->]. lia.
    + destruct G as (p & e & -> & P & T1 & T2); [discriminate|].
      apply andb_true_iff in OK. destruct OK as [M W]. apply meaning_eqb_eq in M.
      pose proof (validate_secondary_int _ _ _ _ T2 VS) as V. rewrite T1 in V. destruct V as (z & h & H1 & H2).
      exists (prim + z - 1). cbn [read_item first item_slices]. rewrite (parse_immediate_int _ _ _ _ P H1). split; [reflexivity|].
      destruct (HI eq_refl) as (h' & Q1 & Q2).
      assert (PT : primary_type (i_ptype i') = true) by (rewrite Q2; reflexivity).
      assert (NH : i_ptype i' <> ImmediateHalfFloat) by (rewrite Q2; discriminate).
      destruct (validate_primary_int _ _ _ _ _ PT NH Q1 VP) as (z' & h'' & K1 & K2). injection K1 as <- <-.
      rewrite Q2, M in K2. specialize (K2 0 5). cbn [meant getImmediateBits] in K2.
      assert (K3 : pv mod 32 = prim mod 32).
      { specialize (K2 ltac:(lia) ltac:(lia) ltac:(lia)). unfold bits in K2. rewrite !Z.div_1_r in K2. exact K2. }
      apply (within_agree 5); [|assumption]. intros. subst sv. apply mod32_bits; try lia.
      destruct (s32_wrap z) as [k ->]. clear - K3. lia.
    + destruct (SS eq_refl) as (T1 & T2 & T3).
      destruct ps as [|p r']; [discriminate|]. destruct p as [|d s vv| |n hh| | |]; try discriminate.
      * destruct d; [discriminate|]. destruct (find_name cop2Conditions s) as [v|] eqn:F; [|discriminate].
        injection E as <- <-. cbn [i_stype i_sexp i_sval set_secondary] in T1, T2, T3.
        rewrite (NS eq_refl) in T2. pose proof (validate_secondary_set _ _ _ T2 T1 VS) as V. rewrite T3 in V. subst sv.
        exists v. cbn [read_item first item_slices]. rewrite <- cc_names_eq, F. split; [reflexivity|apply Forall_agree_refl].
      * destruct (Z.leb_spec (Z.of_N n) 5); [|discriminate]. injection E as <- <-.
        cbn [i_stype i_sexp i_sval set_secondary] in T1, T2, T3.
        rewrite (NS eq_refl) in T2. pose proof (validate_secondary_set _ _ _ T2 T1 VS) as V. rewrite T3 in V. subst sv.
        exists (Z.of_N n). cbn [read_item first item_slices]. destruct (Z.ltb_spec (Z.of_N n) 6); [|lia].
        split; [reflexivity|apply Forall_agree_refl].
  - (* conditions *)
    destruct it; try discriminate OK. change (tok_value i' pv sv TCond) with (i_vcond i').
    destruct ps as [|p r']; [discriminate|]. destruct p as [|d s vv| | | | |]; try discriminate.
    destruct d; [discriminate|]. destruct (find_name vfpuConditions s) as [v|] eqn:F; [|discriminate].
    injection E as <- <-. rewrite (SC eq_refl). cbn [i_vcond set_vcond]. exists v.
    cbn [read_item first item_slices]. rewrite <- cond_names_eq, F. split; [reflexivity|apply Forall_agree_refl].
  - (* vector arguments *)
    destruct it; try discriminate OK. rewrite !andb_true_iff in OK. destruct OK as [[OK M] W].
    apply vecarg_eqb_eq in OK. subst w0. apply meaning_eqb_eq in M. change (tok_value i' pv sv (TVec w)) with pv.
    destruct ps as [|p r']; [discriminate|]. destruct p as [| | | | | |n]; try discriminate.
    destruct (vec_range w (Z.of_N n)) eqn:R; [|discriminate]. injection E as <- <-.
    destruct (SP eq_refl) as (T1 & T2 & T3). cbn [i_ptype i_pexp i_pval set_primary] in T1, T2, T3. rewrite (NP eq_refl) in T2.
    assert (PT : primary_type (i_ptype i') = true) by (rewrite T1; destruct w; reflexivity).
    exists (Z.of_N n). cbn [read_item first item_slices]. rewrite R. split; [reflexivity|].
    apply (within_agree (getImmediateBits (vec_type w))); [|assumption]. intros. symmetry. rewrite <- T3.
    apply (validate_primary_set _ _ _ _ PT M T2 VP); rewrite ?T1; lia.
  - destruct it; try discriminate OK.
    destruct ps as [|p r']; [discriminate|]. destruct p as [|d s vv| | | | |]; try discriminate.
    destruct d; [discriminate|]. destruct (String.eqb s "wb") eqn:F; [|discriminate]. injection E as <- <-.
    exists 0. split; [|constructor]. cbn [read_item first item_slices]. rewrite F. reflexivity.
  - destruct it; try discriminate OK. apply Ascii.eqb_eq in OK. subst c0.
    destruct ps as [|p r']; [discriminate|]. destruct p as [d| | | | | |]; try discriminate.
    destruct (Ascii.eqb c d) eqn:F; [|discriminate]. injection E as <- <-.
    exists 0. split; [|constructor]. cbn [read_item first item_slices]. rewrite F. reflexivity.
  - discriminate.
Qed.
End Token.

(** ** The operands of a line *)

Definition same_field (a b : slice * Z) : Prop := fst a = fst b /\ agree (snd a) (snd b) (fst a).

Lemma fill_fields f v w : Forall (agree v w) f -> Forall2 same_field (fill f v) (map (fun x => (x, w)) f).
Proof. unfold fill. induction 1; cbn [map]; constructor; [split; [reflexivity|assumption]|assumption]. Qed.

Lemma parse_operand_size o t i ps j r : parse_operand o t i ps = Some (j, r) -> i_vsize j = i_vsize i.
Proof. intros E. apply parse_operand_frame in E. apply (fr_size _ _ _ E). Qed.

Lemma tok_item_slices o size name t it : tok_item_ok o size name t it = true -> item_slices it = tok_slices o t.
Proof. unfold tok_item_ok. rewrite andb_true_iff. intros [H _]. apply slices_eqb_eq, H. Qed.
Lemma next_prim_other o size name t it ps prim : tok_item_ok o size name t it = true -> is_primary t = false ->
  next_prim it ps prim = prim.
Proof.
  unfold tok_item_ok. rewrite andb_true_iff. intros [_ H] P. destruct it; try reflexivity.
  destruct t as [| | | | | | | |ty|ty| | | | |]; try discriminate H; try discriminate P. destruct ty; discriminate H.
Qed.

Definition only5 (ts : list tmpl) : bool := forallb only_imm5 ts.

Lemma parse_sound o name pc pv sv : forall ts its prim i ps i',
  parse_operands o ts i ps = Some (i', []) ->
  tokens_items_ok o (i_vsize i) name ts its = true -> order_ok ts = true ->
  (existsb is_primary ts = true -> i_pexp i = None) -> (existsb is_secondary ts = true -> i_sexp i = None) ->
  (existsb is_ins ts = true -> existsb is_primary ts = false -> has_pos prim i) ->
  validate_primary o pc i' = ROk pv -> validate_secondary i' pv = ROk sv ->
  exists vals, read_items name pc prim its ps = Some vals /\
               Forall2 same_field vals (flat_map (tok_fields o i' pv sv) ts).
Proof.
  induction ts as [|t ts IH]; intros its prim i ps i' E OK ORD NP NS HI VP VS.
  - cbn [parse_operands] in E. injection E as <- ->. destruct its; [|discriminate OK]. exists []. split; [reflexivity|constructor].
  - destruct its as [|it its]; [discriminate OK|]. cbn [tokens_items_ok] in OK. apply andb_true_iff in OK. destruct OK as [OK1 OK2].
    cbn [parse_operands] in E. destruct (parse_operand o t i ps) as [[j r]|] eqn:F; [|discriminate].
    pose proof (parse_operand_frame _ _ _ _ _ _ F) as FR. pose proof (parse_operands_frame _ _ _ _ _ _ E) as FR'.
    cbn [order_ok] in ORD. rewrite !andb_true_iff in ORD.
    destruct ORD as [[[[[[O1 O2] O3] O4] O5] O6] O7].
    assert (SE : settled t j i').
    { destruct FR' as [R P S C _]. split.
      - intros x Hx. apply R. unfold tok_slots in O1 at 2. rewrite Hx in O1. cbn [forallb] in O1. rewrite andb_true_r in O1.
        intros Hin. apply negb_true_iff in O1. enough (existsb (fun y => if slot_eq_dec x y then true else false) (flat_map tok_slots ts) = true) by congruence.
        apply existsb_exists. exists x. split; [assumption|]. destruct (slot_eq_dec x x); [reflexivity|contradiction].
      - intros H. rewrite H in O2. apply P. destruct (existsb is_primary ts); [discriminate O2|reflexivity].
      - intros H. rewrite H in O3. apply S. destruct (existsb is_secondary ts); [discriminate O3|reflexivity].
      - intros H. rewrite H in O4. apply C. destruct (existsb is_cond ts); [discriminate O4|reflexivity]. }
    assert (HI' : is_ins t = true -> exists h, i_pexp i' = Some (VInt prim h) /\ i_ptype i' = Immediate5).
    { intros H. rewrite H in O5. cbn [implb] in O5. apply negb_true_iff in O5.
      assert (TP : is_primary t = false) by (destruct t; try discriminate H; reflexivity).
      assert (TI : existsb is_ins (t :: ts) = true) by (cbn [existsb]; rewrite H; reflexivity).
      assert (TN : existsb is_primary (t :: ts) = false) by (cbn [existsb]; rewrite TP, O5; reflexivity).
      destruct (HI TI TN) as (h & H1 & H2). exists h.
      destruct (fr_prim _ _ _ (frame_cons _ _ _ _ _ FR FR') TN) as (Q1 & Q2 & _). split; congruence. }
    destruct (token_sound o name pc pv sv t it prim i ps j r i' F SE OK1) as (v & V1 & V2); auto.
    { intros H. apply NP. cbn [existsb]. rewrite H. reflexivity. }
    { intros H. apply NS. cbn [existsb]. rewrite H. reflexivity. }
    pose proof (fr_size _ _ _ FR) as SZ. rewrite <- SZ in OK2.
    destruct (IH its (next_prim it ps prim) j r i' E OK2 O7) as (vals & W1 & W2); auto.
    { intros H. assert (TP : is_primary t = false) by (rewrite H, andb_true_r in O2; destruct (is_primary t); [discriminate O2|reflexivity]).
      destruct (fr_prim _ _ _ FR) as (_ & Q & _); [cbn [existsb]; rewrite TP; reflexivity|]. rewrite Q. apply NP.
      cbn [existsb]. rewrite H. apply orb_true_r. }
    { intros H. assert (TP : is_secondary t = false) by (rewrite H, andb_true_r in O3; destruct (is_secondary t); [discriminate O3|reflexivity]).
      destruct (fr_sec _ _ _ FR) as (_ & Q & _); [cbn [existsb]; rewrite TP; reflexivity|]. rewrite Q. apply NS.
      cbn [existsb]. rewrite H. apply orb_true_r. }
    { intros H1 H2. destruct (is_primary t) eqn:TP.
      - rewrite H1 in O6. cbn [implb] in O6.
        destruct t as [| | | | | | | |ty| | | | | |]; try discriminate TP; [|discriminate O6]. destruct ty; try discriminate O6.
        destruct (se_prim _ _ _ SE eq_refl) as (Q1 & Q2 & _).
        cbn [parse_operand] in F. destruct ps as [|p ps']; [discriminate|].
        destruct (parse_immediate p) as [e|] eqn:P; [|discriminate]. injection F as <- <-.
        cbn [i_ptype i_pexp set_primary] in Q1, Q2.
        assert (PT : primary_type (i_ptype i') = true) by (rewrite Q1; reflexivity).
        assert (NH : i_ptype i' <> ImmediateHalfFloat) by (rewrite Q1; discriminate).
        destruct (validate_primary_int _ _ _ _ _ PT NH Q2 VP) as (z & h & K1 & _). subst e.
        pose proof (parse_immediate_int _ _ _ _ P eq_refl) as I.
        unfold tok_item_ok in OK1. apply andb_true_iff in OK1. destruct OK1 as [_ OK1].
        destruct it; try discriminate OK1. cbn [next_prim]. rewrite I. exists h. split; reflexivity.
      - rewrite (next_prim_other _ _ _ _ _ _ _ OK1 TP).
        destruct HI as (h & Q1 & Q2); [cbn [existsb]; rewrite H1; apply orb_true_r|cbn [existsb]; rewrite TP, H2; reflexivity|].
        destruct (fr_prim _ _ _ FR) as (R1 & R2 & _); [cbn [existsb]; rewrite TP; reflexivity|].
        exists h. split; congruence. }
    exists (fill (item_slices it) v ++ vals). cbn [read_items]. rewrite V1, W1. split; [reflexivity|].
    cbn [flat_map]. apply Forall2_app; [|assumption].
    unfold tok_fields. rewrite <- (tok_item_slices _ _ _ _ _ OK1). apply fill_fields, V2.
Qed.

(** The numbers the parser stores. *)
Definition tok_bound (o : mips_opcode) (t : tmpl) : Z :=
  match t with
  | TReg _ _ => 32
  | TVfpu _ _ => if mhas o MO_VFPU_6BIT then 64 else 128
  | TMtx _ => 128
  | _ => 16
  end.
Definition slot_fits (o : mips_opcode) (t : tmpl) : bool :=
  match tok_slot t with Some x => tok_bound o t <=? slot_bound o x | None => true end.

Lemma lxor_32_range v : 0 <= v < 128 -> 0 <= Z.lxor v 32 < 128.
Proof.
  intros H. assert (C : forallb (fun k => (0 <=? Z.lxor (Z.of_nat k) 32) && (Z.lxor (Z.of_nat k) 32 <? 128)) (seq 0 128) = true)
    by (vm_compute; reflexivity).
  rewrite forallb_forall in C. specialize (C (Z.to_nat v)). rewrite Z2Nat.id in C by lia.
  rewrite in_seq in C. specialize (C ltac:(lia)). lia.
Qed.
Lemma parse_operand_range o t i ps j r x : parse_operand o t i ps = Some (j, r) -> tok_slot t = Some x ->
  0 <= i_regs j x < tok_bound o t.
Proof.
  intros E Hx.
  assert (REG : forall v, 0 <= v < tok_bound o t -> j = set_regs i (set_reg (i_regs i) x v) -> 0 <= i_regs j x < tok_bound o t).
  { intros v Hv ->. cbn [i_regs set_regs]. rewrite set_reg_same. exact Hv. }
  destruct t; cbn [parse_operand] in E; try discriminate Hx; injection Hx as <-.
  - destruct ps as [|p r']; [discriminate|]. destruct (parse_register f p) as [v|] eqn:P; [|discriminate].
    injection E as <- <-. apply (REG v); [|reflexivity]. apply (parse_register_range _ _ _ P).
  - destruct ps as [|p r']; [discriminate|]. destruct (vfpu_actual sel (i_vsize i)) as [z|] eqn:A; [|discriminate].
    destruct (parse_vfpu z p) as [[v []]|] eqn:P; try discriminate. apply parse_vfpu_spec in P. destruct P as [_ P].
    destruct (mhas o MO_VFPU_6BIT && negb (Z.land v 64 =? 0)) eqn:B; [discriminate|].
    injection E as <- <-. apply (REG v); [|reflexivity]. cbn [tok_bound].
    destruct (mhas o MO_VFPU_6BIT); [|assumption]. rewrite land_64 in B by assumption. lia.
  - destruct ps as [|p r']; [discriminate|]. destruct (parse_vfpu_control p) as [v|] eqn:P; [|discriminate].
    injection E as <- <-. apply (REG v); [|reflexivity]. cbn [tok_bound].
    destruct p as [|d s vv| |n hh| | |]; try discriminate P.
    + destruct d; [discriminate|]. cbn [parse_vfpu_control] in P.
      revert P. apply (table_range _ 16). vm_compute. reflexivity.
    + cbn [parse_vfpu_control] in P. destruct (Z.leb_spec (Z.of_N n) 15); [|discriminate]. injection P as <-. lia.
  - destruct ps as [|p r']; [discriminate|]. destruct (parse_vfpu (i_vsize i) p) as [[v []]|] eqn:P; try discriminate.
    apply parse_vfpu_spec in P. destruct P as [_ P]. injection E as <- <-.
    eapply REG; [|reflexivity]. cbn [tok_bound]. pose proof (lxor_32_range v P).
    destruct x0; try assumption. destruct (mhas o MO_VFPU_TRANSPOSE_VS); assumption.
  - destruct (parse_vector_element ps) as [[v r']|] eqn:P; [|discriminate]. injection E as <- <-.
    apply (REG v); [|reflexivity]. cbn [tok_bound]. unfold parse_vector_element in P.
    destruct ps as [|[| | | | |[n|tx n]|] ps]; try (injection P as <- <-; lia).
    + destruct (Z.ltb_spec (Z.of_N n) 16); [|discriminate]. injection P as <- <-. lia.
    + destruct (find_name rspElementNames tx) as [z|] eqn:F; [|discriminate]. injection P as <- <-.
      revert F. apply (table_range _ 16). vm_compute. reflexivity.
  - destruct (parse_scalar_element ps) as [[v r']|] eqn:P; [|discriminate]. injection E as <- <-.
    apply (REG v); [|reflexivity]. cbn [tok_bound]. unfold parse_scalar_element in P.
    destruct ps as [|[| | | | |[n|tx [n|]]|] ps]; try discriminate P.
    destruct (Z.ltb_spec (Z.of_N n) 8); [|discriminate]. injection P as <- <-. lia.
  - destruct (parse_offset_element ps) as [[v r']|] eqn:P; [|discriminate]. injection E as <- <-.
    apply (REG v); [|reflexivity]. cbn [tok_bound]. unfold parse_offset_element in P.
    destruct ps as [|[| | | | |[n|tx [n|]]|] ps]; try discriminate P; try (injection P as <- <-; lia).
    destruct (Z.ltb_spec (Z.of_N n) 16); [|discriminate]. injection P as <- <-. lia.
Qed.

Lemma parse_operands_range o : forall ts i ps i' r, parse_operands o ts i ps = Some (i', r) ->
  order_ok ts = true -> forallb (slot_fits o) ts = true ->
  forall x, In x (flat_map tok_slots ts) -> 0 <= i_regs i' x < slot_bound o x.
Proof.
  induction ts as [|t ts IH]; intros i ps i' r E ORD FIT x Hx; [destruct Hx|].
  cbn [parse_operands] in E. destruct (parse_operand o t i ps) as [[j q]|] eqn:F; [|discriminate].
  cbn [order_ok] in ORD. rewrite !andb_true_iff in ORD. destruct ORD as [[[[[[O1 _] _] _] _] _] O7].
  cbn [forallb] in FIT. apply andb_true_iff in FIT. destruct FIT as [FIT FIT'].
  cbn [flat_map] in Hx. apply in_app_iff in Hx. destruct Hx as [Hx|Hx]; [|eapply IH; eauto].
  unfold tok_slots in Hx, O1. destruct (tok_slot t) as [y|] eqn:T; [|destruct Hx]. destruct Hx as [->|[]].
  unfold slot_fits in FIT. rewrite T in FIT.
  pose proof (parse_operand_range _ _ _ _ _ _ _ F T) as R.
  rewrite (fr_regs _ _ _ (parse_operands_frame _ _ _ _ _ _ E) x); [lia|].
  intros Hin. cbn [forallb] in O1. rewrite andb_true_r in O1. apply negb_true_iff in O1.
  enough (existsb (fun y => if slot_eq_dec x y then true else false) (flat_map tok_slots ts) = true) by (unfold tok_slots in *; congruence).
  apply existsb_exists. exists x. split; [assumption|]. destruct (slot_eq_dec x x); [reflexivity|contradiction].
Qed.

Lemma parse_operands_cond o : forall ts i ps i' r, parse_operands o ts i ps = Some (i', r) ->
  order_ok ts = true -> existsb is_cond ts = true -> 0 <= i_vcond i' < 16.
Proof.
  induction ts as [|t ts IH]; intros i ps i' r E ORD C; [discriminate|].
  cbn [parse_operands] in E. destruct (parse_operand o t i ps) as [[j q]|] eqn:F; [|discriminate].
  cbn [order_ok] in ORD. rewrite !andb_true_iff in ORD. destruct ORD as [[[[[[_ _] _] O4] _] _] O7].
  destruct (existsb is_cond ts) eqn:C'; [eapply IH; eauto|].
  rewrite (fr_cond _ _ _ (parse_operands_frame _ _ _ _ _ _ E) C').
  cbn [existsb] in C. rewrite C', orb_false_r in C. destruct t; try discriminate C.
  cbn [parse_operand] in F. destruct ps as [|p r']; [discriminate|]. destruct p as [|d s vv| | | | |]; try discriminate.
  destruct d; [discriminate|]. destruct (find_name vfpuConditions s) as [v|] eqn:G; [|discriminate].
  injection F as <- <-. cbn [i_vcond set_vcond]. revert G. apply (table_range _ 16). vm_compute. reflexivity.
Qed.

(** The types of the two immediates. *)
Definition primary_of (ts : list tmpl) : imm_type :=
  match find is_primary ts with Some (TImm ty) => ty | Some (TVec w) => vec_type w | _ => INone end.
Definition secondary_of (ts : list tmpl) : option imm_type :=
  match find is_secondary ts with Some (TSec ty) => Some ty | _ => None end.
Lemma find_none {A} (f : A -> bool) l : existsb f l = false -> find f l = None.
Proof.
  induction l as [|x l IH]; cbn [existsb find]; [reflexivity|]. rewrite orb_false_iff. intros [-> H]. auto.
Qed.
Lemma parse_operands_primary o : forall ts i ps i' r, parse_operands o ts i ps = Some (i', r) -> order_ok ts = true ->
  i_ptype i = INone -> i_ptype i' = primary_of ts.
Proof.
  induction ts as [|t ts IH]; intros i ps i' r E ORD Hi.
  { cbn [parse_operands] in E. injection E as <- <-. exact Hi. }
  cbn [parse_operands] in E. destruct (parse_operand o t i ps) as [[j q]|] eqn:F; [|discriminate].
  cbn [order_ok] in ORD. rewrite !andb_true_iff in ORD. destruct ORD as [[[[[[_ O2] _] _] _] _] O7].
  unfold primary_of. cbn [find]. destruct (is_primary t) eqn:P.
  - cbn [andb] in O2. apply negb_true_iff in O2.
    destruct (fr_prim _ _ _ (parse_operands_frame _ _ _ _ _ _ E) O2) as [-> _].
    destruct t; try discriminate P; cbn [parse_operand] in F; (destruct ps as [|p ps]; [discriminate|]).
    + destruct (parse_immediate p); [|discriminate]. injection F as <- <-. reflexivity.
    + destruct p as [| | | | | |n]; try discriminate. destruct (vec_range w (Z.of_N n)); [|discriminate].
      injection F as <- <-. reflexivity.
  - apply (IH j q i' r E O7). destruct (fr_prim _ _ _ (parse_operand_frame _ _ _ _ _ _ F)) as [-> _]; [|exact Hi].
    cbn [existsb]. rewrite P. reflexivity.
Qed.
Lemma parse_operands_secondary o : forall ts i ps i' r, parse_operands o ts i ps = Some (i', r) -> order_ok ts = true ->
  i_stype i' = match secondary_of ts with Some ty => ty | None => i_stype i end.
Proof.
  induction ts as [|t ts IH]; intros i ps i' r E ORD.
  { cbn [parse_operands] in E. injection E as <- <-. reflexivity. }
  cbn [parse_operands] in E. destruct (parse_operand o t i ps) as [[j q]|] eqn:F; [|discriminate].
  cbn [order_ok] in ORD. rewrite !andb_true_iff in ORD. destruct ORD as [[[[[[_ _] O2] _] _] _] O7].
  unfold secondary_of. cbn [find]. destruct (is_secondary t) eqn:P.
  - cbn [andb] in O2. apply negb_true_iff in O2.
    destruct (fr_sec _ _ _ (parse_operands_frame _ _ _ _ _ _ E) O2) as [-> _].
    destruct t; try discriminate P.
    assert (G : match ps with
                | p :: r => match parse_immediate p with Some v => Some (set_secondary i t (Some v) (i_sval i), r) | None => None end
                | [] => None
                end = Some (j, q) -> i_stype j = t).
    { destruct ps as [|p r']; [discriminate|]. destruct (parse_immediate p) as [v|]; [|discriminate].
      intros H. injection H as <- <-. reflexivity. }
    cbn [parse_operand] in F. destruct t; try exact (G F).
    destruct ps as [|p r']; [discriminate|]. destruct p as [|d s vv| |n hh| | |]; try discriminate.
    + destruct d; [discriminate|]. destruct (find_name cop2Conditions s); [|discriminate]. injection F as <- <-. reflexivity.
    + destruct (Z.of_N n <=? 5); [|discriminate]. injection F as <- <-. reflexivity.
  - rewrite (IH j q i' r E O7). unfold secondary_of. destruct (find is_secondary ts) as [[]|]; try reflexivity;
      (destruct (fr_sec _ _ _ (parse_operand_frame _ _ _ _ _ _ F)) as [-> _]; [cbn [existsb]; rewrite P; reflexivity|reflexivity]).
Qed.
Lemma parse_operands_cc o : forall ts i ps i' r, parse_operands o ts i ps = Some (i', r) -> order_ok ts = true ->
  secondary_of ts = Some Cop2BranchType -> 0 <= i_sval i' < 6 /\ i_sexp i' = i_sexp i.
Proof.
  induction ts as [|t ts IH]; intros i ps i' r E ORD C; [discriminate|].
  cbn [parse_operands] in E. destruct (parse_operand o t i ps) as [[j q]|] eqn:F; [|discriminate].
  cbn [order_ok] in ORD. rewrite !andb_true_iff in ORD. destruct ORD as [[[[[[_ _] O2] _] _] _] O7].
  unfold secondary_of in C. cbn [find] in C. destruct (is_secondary t) eqn:P.
  - cbn [andb] in O2. apply negb_true_iff in O2.
    destruct (fr_sec _ _ _ (parse_operands_frame _ _ _ _ _ _ E) O2) as (_ & -> & ->).
    destruct t; try discriminate P. injection C as ->. cbn [parse_operand] in F.
    destruct ps as [|p r']; [discriminate|]. destruct p as [|d s vv| |n hh| | |]; try discriminate.
    + destruct d; [discriminate|]. destruct (find_name cop2Conditions s) as [v|] eqn:G; [|discriminate]. injection F as <- <-.
      cbn [i_sval i_sexp set_secondary]. split; [|reflexivity]. revert G. apply (table_range _ 6). vm_compute. reflexivity.
    + destruct (Z.leb_spec (Z.of_N n) 5); [|discriminate]. injection F as <- <-. cbn [i_sval i_sexp set_secondary]. split; [lia|reflexivity].
  - destruct (IH j q i' r E O7 C) as [H1 H2]. split; [assumption|].
    destruct (fr_sec _ _ _ (parse_operand_frame _ _ _ _ _ _ F)) as (_ & H & _); [cbn [existsb]; rewrite P; reflexivity|congruence].
Qed.
Lemma parse_operands_sec_exp o : forall ts i ps i' r ty, parse_operands o ts i ps = Some (i', r) -> order_ok ts = true ->
  secondary_of ts = Some ty -> ty <> Cop2BranchType -> exists e, i_sexp i' = Some e.
Proof.
  induction ts as [|t ts IH]; intros i ps i' r ty E ORD C NC; [discriminate|].
  cbn [parse_operands] in E. destruct (parse_operand o t i ps) as [[j q]|] eqn:F; [|discriminate].
  cbn [order_ok] in ORD. rewrite !andb_true_iff in ORD. destruct ORD as [[[[[[_ _] O2] _] _] _] O7].
  unfold secondary_of in C. cbn [find] in C. destruct (is_secondary t) eqn:P.
  - cbn [andb] in O2. apply negb_true_iff in O2.
    destruct (fr_sec _ _ _ (parse_operands_frame _ _ _ _ _ _ E) O2) as (_ & -> & _).
    destruct t; try discriminate P. injection C as ->.
    assert (G : match ps with
                | p :: r => match parse_immediate p with Some v => Some (set_secondary i ty (Some v) (i_sval i), r) | None => None end
                | [] => None
                end = Some (j, q)) by (cbn [parse_operand] in F; destruct ty; try exact F; congruence).
    destruct ps as [|p r']; [discriminate|]. destruct (parse_immediate p) as [v|]; [|discriminate].
    injection G as <- <-. exists v. reflexivity.
  - exact (IH j q i' r ty E O7 C NC).
Qed.

(** ** The bits of the word *)

Definition field_bit (k : Z) (x : slice * Z) : bool :=
  (f_pos (fst x) <=? k) && (k <? f_pos (fst x) + f_len (fst x)) && Z.testbit (snd x) (f_skip (fst x) + (k - f_pos (fst x))).

Definition adds (e e' : Z) (l : list (slice * Z)) : Prop :=
  forall k, 0 <= k < 32 -> Z.testbit e' k = Z.testbit e k || existsb (field_bit k) l.
Lemma adds_nil e : adds e e [].
Proof. intros k _. cbn [existsb]. rewrite orb_false_r. reflexivity. Qed.
Lemma adds_app a b c l m : adds a b l -> adds b c m -> adds a c (l ++ m).
Proof. intros H1 H2 k Hk. rewrite existsb_app, H2, H1 by assumption. rewrite orb_assoc. reflexivity. Qed.
Lemma adds_lor e x f v : (forall k, 0 <= k < 32 -> Z.testbit x k = field_bit k (f, v)) -> adds e (Z.lor e x) [(f, v)].
Proof. intros H k Hk. rewrite Z.lor_spec, H by assumption. cbn [existsb]. rewrite orb_false_r. reflexivity. Qed.

Lemma bit_shifted pos len v k : 0 <= pos -> 0 <= v < 2 ^ len -> 0 <= len -> 0 <= k ->
  Z.testbit (Z.shiftl v pos) k = field_bit k (mkSlice pos len 0, v).
Proof.
  intros Hp Hv Hl Hk. unfold field_bit. cbn [fst snd f_pos f_len f_skip]. rewrite Z.shiftl_spec by assumption.
  rewrite Z.add_0_l. destruct (Z.leb_spec pos k); [|cbn [andb]; apply Z.testbit_neg_r; lia].
  destruct (Z.ltb_spec k (pos + len)); [reflexivity|]. cbn [andb]. apply (testbit_small v len); lia.
Qed.
Lemma bit_plain len v k : 0 <= v < 2 ^ len -> 0 <= len -> 0 <= k -> Z.testbit v k = field_bit k (mkSlice 0 len 0, v).
Proof. intros. rewrite <- (bit_shifted 0 len v k) by lia. rewrite Z.shiftl_0_r. reflexivity. Qed.
Lemma bit_field pos len v k : 0 <= pos -> 0 <= len -> 0 <= k ->
  Z.testbit (BITFIELD pos len v) k = field_bit k (mkSlice pos len 0, v).
Proof.
  intros Hp Hl Hk. unfold BITFIELD. rewrite (Z.shiftl_mul_pow2 1 len), Z.mul_1_l, land_ones_mod by assumption.
  rewrite (bit_shifted pos len) by (try lia; apply Z.mod_pos_bound; apply Z.pow_pos_nonneg; lia).
  unfold field_bit. cbn [fst snd f_pos f_len f_skip]. rewrite Z.add_0_l.
  destruct (Z.leb_spec pos k); [|reflexivity]. destruct (Z.ltb_spec k (pos + len)); [|reflexivity]. cbn [andb].
  apply Z.mod_pow2_bits_low. lia.
Qed.
Lemma bit_aligned len v k : 2 <= len -> 0 <= v < 2 ^ len -> v mod 4 = 0 -> 0 <= k ->
  Z.testbit v k = field_bit k (mkSlice 2 (len - 2) 2, v).
Proof.
  intros Hl Hv Ha Hk. unfold field_bit. cbn [fst snd f_pos f_len f_skip].
  destruct (Z.leb_spec 2 k).
  - replace (2 + (k - 2)) with k by ring. destruct (Z.ltb_spec k (2 + (len - 2))); [reflexivity|]. cbn [andb].
    apply (testbit_small v len); lia.
  - cbn [andb]. rewrite <- (Z.mod_pow2_bits_low v 2 k) by lia. change (2 ^ 2) with 4. rewrite Ha. apply Z.bits_0.
Qed.

(** The contribution of one register. *)
Definition part (r : mregs) (x : slot) (f : list slice) : list (slice * Z) :=
  if r x =? -1 then [] else map (fun s => (s, r x)) f.
Lemma or_reg_field g r x pos len e : 0 <= pos -> 0 <= len -> (forall v, g v = BITFIELD pos len v) ->
  adds e (or_reg g r x e) (part r x [mkSlice pos len 0]).
Proof.
  intros. unfold or_reg, part. destruct (r x =? -1); [apply adds_nil|]. cbn [map]. apply adds_lor. intros. rewrite H1.
  apply bit_field; lia.
Qed.
Lemma or_reg_shift g r x pos len e : 0 <= pos -> 0 <= len -> (forall v, g v = Z.shiftl v pos) ->
  r x = -1 \/ 0 <= r x < 2 ^ len ->
  adds e (or_reg g r x e) (part r x [mkSlice pos len 0]).
Proof.
  intros. unfold or_reg, part. destruct (Z.eqb_spec (r x) (-1)); [apply adds_nil|]. cbn [map]. apply adds_lor. intros. rewrite H1.
  apply bit_shifted; lia.
Qed.

Lemma ROk_inj {A} (a b : A) : ROk a = ROk b -> a = b.
Proof. congruence. Qed.
Definition in_bounds (o : mips_opcode) (r : mregs) : Prop := forall x, r x = -1 \/ 0 <= r x < slot_bound o x.

(** Everything the encoder puts into a word. *)
Definition normal_slots : list slot :=
  [grs; grt; grd; frt; frs; frd; ps2vrt; ps2vrs; ps2vrd; rspvrt; rspvrs; rspvrd; rspve; rspvde; rspvealt; vrt].
Definition vfpu_slots : list slot := [vrd; vrs; vrt; grt].
Definition word_parts (o : mips_opcode) (r : mregs) (pt : imm_type) (pv : Z) (st : imm_type) (sv : Z) (vcond : Z) :
  list (slice * Z) :=
  if mhas o MO_VFPU then
    flat_map (fun x => part r x (slot_slices o x)) vfpu_slots ++
    map (fun f => (f, pv)) (primary_slices o pt) ++ (if vcond =? -1 then [] else [(mkSlice 0 4 0, vcond)])
  else
    flat_map (fun x => part r x (slot_slices o x)) normal_slots ++
    map (fun f => (f, pv)) (primary_slices o pt) ++ map (fun f => (f, sv)) (secondary_slices o st).

Lemma adds_eq a b l m : adds a b l -> (forall k, existsb (field_bit k) l = existsb (field_bit k) m) -> adds a b m.
Proof. intros H E k Hk. rewrite H, E by assumption. reflexivity. Qed.

Lemma primary_adds o t pv e : mhas o MO_VFPU = false -> (primary_type t = true -> 0 <= pv < 2 ^ getImmediateBits t) ->
  (mhas o MO_IMMALIGNED = true -> primary_type t = true -> pv mod 4 = 0) ->
  adds e (match t with
          | Immediate5 | Immediate10 | Immediate20 => Z.lor e (Z.shiftl pv 6)
          | Immediate16 | Immediate25 | Immediate26 | Immediate20_0 | Immediate7 | ImmediateHalfFloat => Z.lor e pv
          | _ => e
          end) (map (fun f => (f, pv)) (primary_slices o t)).
Proof.
  intros V R A. unfold primary_slices. rewrite V.
  destruct t; cbn [map]; try apply adds_nil; specialize (R eq_refl); cbn [getImmediateBits] in R;
    try (apply adds_lor; intros; apply bit_shifted; lia); try (apply adds_lor; intros; apply bit_plain; lia).
  - destruct (mhas o MO_IMMALIGNED); cbn [map]; apply adds_lor; intros;
      [apply (bit_aligned 16); try lia; apply A; reflexivity|apply bit_plain; lia].
  - destruct (mhas o MO_IMMALIGNED); cbn [map]; apply adds_lor; intros;
      [apply (bit_aligned 16); try lia; apply A; reflexivity|apply bit_plain; lia].
Qed.

Lemma bit_upper v n k : 0 <= v < 2 ^ (5 + n) -> 0 <= n -> 0 <= k ->
  Z.testbit (Z.shiftr v 5) k = field_bit k (mkSlice 0 n 5, v).
Proof.
  intros Hv Hn Hk. unfold field_bit. cbn [fst snd f_pos f_len f_skip]. rewrite Z.shiftr_spec by assumption.
  rewrite Z.sub_0_r, (Z.add_comm 5). destruct (Z.leb_spec 0 k); [|lia].
  destruct (Z.ltb_spec k (0 + n)); [reflexivity|]. cbn [andb]. apply (testbit_small v (5 + n)); lia.
Qed.

Lemma normal_bits o r pt pv st sv vc w : mhas o MO_VFPU = false -> in_bounds o r ->
  (mhas o MO_VFPU_MIXED = true -> r vrt <> -1) ->
  (primary_type pt = true -> 0 <= pv < 2 ^ getImmediateBits pt) ->
  (mhas o MO_IMMALIGNED = true -> primary_type pt = true -> pv mod 4 = 0) ->
  sv < (match st with Cop2BranchType => 8 | _ => 32 end) ->
  encodeNormal o r pt pv st sv = ROk w ->
  0 <= w < 2 ^ 32 /\ adds (m_dest o) w (word_parts o r pt pv st sv vc).
Proof.
  intros V B M PR PA SR E. unfold encodeNormal in E. cbv zeta in E.
  set (e15 := or_reg MIPS_RSP_VEALT r rspvealt _) in E.
  set (e16 := if mhas o MO_VFPU_MIXED then e15 else _) in E.
  set (e17 := match pt with Immediate5 => _ | _ => _ end) in E.
  apply rbind_ok in E. destruct E as (e18 & E1 & E). apply ROk_inj in E. subst w.
  split; [apply u32_range|].
  set (e19 := if mhas o MO_VFPU_MIXED then _ else e18).
  assert (A19 : adds (m_dest o) e19 (word_parts o r pt pv st sv vc));
    [|intros k Hk; unfold u32; change 4294967296 with (2 ^ 32); rewrite Z.mod_pow2_bits_low by lia; apply A19, Hk].
  assert (A15 : adds (m_dest o) e15 (flat_map (fun x => part r x (slot_slices o x))
     [grs; grt; grd; frt; frs; frd; ps2vrt; ps2vrs; ps2vrd; rspvrt; rspvrs; rspvrd; rspve; rspvde; rspvealt])).
  { unfold slot_slices. rewrite V. cbn [flat_map]. rewrite app_nil_r. subst e15. rewrite !app_assoc.
    repeat match goal with |- adds _ (or_reg _ _ _ ?e) (_ ++ _) => apply (adds_app _ e) end;
    first [apply or_reg_field; [lia|lia|intros; reflexivity]
          |apply or_reg_shift; [lia|lia|intros; reflexivity|apply B]]. }
  pose proof (primary_adds o pt pv e16 V PR PA) as A17. fold e17 in A17.
  assert (A18 : adds e17 e18 (map (fun f => (f, sv)) (secondary_slices o st))).
  { unfold secondary_slices. rewrite V. destruct st; cbn [map]; try (apply ROk_inj in E1; subst e18; apply adds_nil);
      (destruct (Z.ltb_spec sv 0); [discriminate|]; apply ROk_inj in E1; subst e18; apply adds_lor; intros; apply bit_shifted; lia). }
  assert (BV : r vrt = -1 \/ 0 <= r vrt < 128).
  { destruct (B vrt) as [->|H]; [left; reflexivity|right]. cbn [slot_bound] in H. destruct (mhas o MO_VFPU_6BIT); lia. }
  unfold word_parts. rewrite V.
  change normal_slots with ([grs; grt; grd; frt; frs; frd; ps2vrt; ps2vrs; ps2vrd; rspvrt; rspvrs; rspvrd; rspve; rspvde; rspvealt] ++ [vrt]).
  rewrite flat_map_app. clearbody e15. set (l15 := flat_map _ [grs; _; _; _; _; _; _; _; _; _; _; _; _; _; _]) in *. clearbody l15.
  destruct (mhas o MO_VFPU_MIXED) eqn:MX.
  - assert (A19 : adds e18 e19 (part r vrt (slot_slices o vrt))).
    { unfold slot_slices. rewrite V, MX. unfold part. specialize (M eq_refl).
      destruct (Z.eqb_spec (r vrt) (-1)); [contradiction|]. destruct BV as [|BV]; [contradiction|].
      cbn [map]. subst e19.
      match goal with |- adds _ _ [?a; ?b] => change [a; b] with ([a] ++ [b]) end.
      eapply adds_app; apply adds_lor; intros k Hk.
      - destruct (B vrt) as [|B']; [contradiction|]. cbn [slot_bound] in B'.
        destruct (mhas o MO_VFPU_6BIT); apply bit_upper; lia.
      - apply (bit_field 16 5 (r vrt) k); lia. }
    eapply adds_eq; [eapply adds_app; [exact A15|eapply adds_app; [exact A17|eapply adds_app; [exact A18|exact A19]]]|].
    intros k. cbn [flat_map]. rewrite app_nil_r, !existsb_app.
    repeat match goal with |- context [existsb (field_bit k) ?l] => generalize (existsb (field_bit k) l); intros [] end; reflexivity.
  - assert (A16 : adds e15 e16 (part r vrt (slot_slices o vrt))).
    { unfold slot_slices. rewrite V, MX. apply or_reg_shift; try lia; intros; reflexivity. }
    subst e19. cbn [flat_map]. rewrite app_nil_r.
    eapply adds_app; [eapply adds_app; [exact A15|exact A16]|eapply adds_app; [exact A17|exact A18]].
Qed.

Definition size_bits (o : mips_opcode) (size : Z) : Z :=
  if negb (size =? -1) && negb (mhas o (flags [MO_VFPU_PAIR; MO_VFPU_SINGLE; MO_VFPU_TRIPLE; MO_VFPU_QUAD]))
  then Z.lor (if Z.land size 1 =? 0 then 0 else 128) (if Z.land size 2 =? 0 then 0 else 32768)
  else 0.
Lemma adds_shift a b l d : adds a b l -> adds (Z.lor a d) (Z.lor b d) l.
Proof. intros H k Hk. rewrite !Z.lor_spec, H by assumption. rewrite <- !orb_assoc. f_equal. apply orb_comm. Qed.

Lemma vfpu_bits o r pt pv st sv vc size w : mhas o MO_VFPU = true -> mhas o MO_VFPU_6BIT = false -> in_bounds o r ->
  (primary_type pt = true -> 0 <= pv < 2 ^ getImmediateBits pt) ->
  vc = -1 \/ 0 <= vc < 16 ->
  encodeVfpu o r pt pv size vc = ROk w ->
  0 <= w < 2 ^ 32 /\ adds (Z.lor (m_dest o) (size_bits o size)) w (word_parts o r pt pv st sv vc).
Proof.
  intros V B6 B PR VC E. unfold encodeVfpu in E. cbv zeta in E. apply ROk_inj in E. subst w.
  split; [apply u32_range|].
  match goal with |- adds _ (u32 ?x) _ => set (e := x) end.
  assert (A : adds (Z.lor (m_dest o) (size_bits o size)) e (word_parts o r pt pv st sv vc));
    [|intros k Hk; unfold u32; change 4294967296 with (2 ^ 32); rewrite Z.mod_pow2_bits_low by lia; apply A, Hk].
  set (e1 := if vc =? -1 then m_dest o else Z.lor (m_dest o) vc) in e.
  set (e2 := or_reg (fun v => v) r vrd e1) in e.
  set (e3 := or_reg (fun v => Z.shiftl v 8) r vrs e2) in e.
  set (e4 := or_reg (fun v => Z.shiftl v 16) r vrt e3) in e.
  set (e5 := if _ && _ then _ else e4) in e.
  set (e6 := or_reg (fun v => Z.shiftl v 16) r grt e5) in e.
  assert (A1 : adds (m_dest o) e1 (if vc =? -1 then [] else [(mkSlice 0 4 0, vc)])).
  { subst e1. destruct (Z.eqb_spec vc (-1)); [apply adds_nil|]. apply adds_lor. intros. apply bit_plain; lia. }
  assert (A2 : adds e1 e2 (part r vrd [mkSlice 0 7 0])).
  { subst e2. unfold or_reg, part. pose proof (B vrd) as H. cbn [slot_bound] in H. destruct (Z.eqb_spec (r vrd) (-1)); [apply adds_nil|].
    cbn [map]. apply adds_lor. intros. apply bit_plain; lia. }
  assert (A3 : adds e2 e3 (part r vrs [mkSlice 8 7 0])).
  { pose proof (B vrs) as H. cbn [slot_bound] in H. apply or_reg_shift; try lia; intros; reflexivity. }
  assert (A4 : adds e3 e4 (part r vrt [mkSlice 16 7 0])).
  { pose proof (B vrt) as H. cbn [slot_bound] in H. rewrite B6 in H. apply or_reg_shift; try lia; intros; reflexivity. }
  assert (A5 : forall k, Z.testbit e5 k = Z.testbit e4 k || Z.testbit (size_bits o size) k).
  { intros k. subst e5. unfold size_bits. destruct (negb (size =? -1) && _); [|rewrite Z.bits_0, orb_false_r; reflexivity].
    change (Z.shiftl 1 7) with 128. change (Z.shiftl 1 15) with 32768.
    destruct (Z.land size 1 =? 0), (Z.land size 2 =? 0); rewrite ?Z.lor_spec, ?Z.bits_0, ?orb_false_r, ?orb_assoc; rewrite ?orb_false_r; reflexivity. }
  assert (A6 : adds e5 e6 (part r grt [mkSlice 16 5 0])).
  { pose proof (B grt) as H. cbn [slot_bound] in H. apply or_reg_shift; try lia; intros; reflexivity. }
  assert (A7 : adds e6 e (map (fun f => (f, pv)) (primary_slices o pt))).
  { subst e. unfold primary_slices. rewrite V. destruct pt; cbn [map]; try apply adds_nil; specialize (PR eq_refl);
      cbn [getImmediateBits] in PR; apply adds_lor; intros; [apply bit_shifted|apply bit_plain]; lia. }
  intros k Hk. unfold word_parts. rewrite V. cbn [flat_map vfpu_slots]. unfold slot_slices. rewrite V. rewrite app_nil_r.
  rewrite !existsb_app. rewrite A7, A6, A5, A4, A3, A2, A1, Z.lor_spec by assumption.
  repeat match goal with |- context [existsb (field_bit k) ?l] => generalize (existsb (field_bit k) l); intro end.
  destruct (Z.testbit (m_dest o) k), (Z.testbit (size_bits o size) k), b, b0, b1, b2, b3, b4; reflexivity.
Qed.
