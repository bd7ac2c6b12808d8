(** What an accepted line does on the reference machine, for the instructions the macros use. *)

Require Import ZArith Lia Bool List String Ascii.
Require Import ZifyBool.
Require Import Verif.Ints Verif.IntsLemmas Verif.BitFields Verif.Res Verif.MipsTable Verif.MipsModel Verif.MipsSpec
  Verif.MipsProofs Verif.MipsWordProofs Verif.MipsCpu Verif.MipsDecodeProofs Verif.MipsMacroModel.
Import ListNotations.
Local Open Scope string_scope.
Local Open Scope list_scope.
Local Open Scope Z_scope.

(** ** Operands *)

Lemma register_range k p n : register k p = Some n -> 0 <= n < 32.
Proof.
  destruct p as [x|d t v|m|m h|v|b|m]; cbn [register]; try discriminate.
  - intros E. apply look_up_in in E. assert (T : forall x, In x (names_of k) -> 0 <= snd x < 32).
    { intros x Hx. assert (F : forallb (fun x : string * Z => (0 <=? snd x) && (snd x <? 32)) (names_of k) = true) by (destruct k; vm_compute; reflexivity).
      rewrite forallb_forall in F. specialize (F x Hx). lia. }
    exact (T _ E).
  - destruct (dollar_ok k && (Z.of_N m <=? 31)) eqn:G; [|discriminate]. intros E. injection E as <-. lia.
Qed.
Lemma register_not_integer p n : register Gpr p = Some n -> integer p = None.
Proof.
  destruct p as [x|d t v|m|m h|v|b|m]; try discriminate; intros E; [|reflexivity].
  cbn [register] in E. cbn [integer]. destruct d; [reflexivity|]. destruct v; [|reflexivity|reflexivity]. rewrite E. reflexivity.
Qed.
Lemma register_not_immediate p n : register Gpr p = Some n -> parse_immediate p = None.
Proof.
  destruct p as [x|d t v|m|m h|v|b|m]; try discriminate; intros E; [|reflexivity].
  cbn [register] in E. cbn [parse_immediate]. rewrite gpr_names, E. reflexivity.
Qed.
Lemma register_gpr p : parse_register RfGpr p = register Gpr p.
Proof. exact (parse_register_spec RfGpr p). Qed.
Lemma register_text k p : register k (reg_text p) = register k p.
Proof. destruct p; reflexivity. Qed.
Lemma integer_immediate p z : integer p = Some z -> exists h, parse_immediate p = Some (VInt z h).
Proof.
  destruct p as [x|d t v|m|m h|v|b|m]; try discriminate.
  - cbn [integer parse_immediate]. destruct d; [discriminate|]. rewrite gpr_names. destruct v as [y h|h|]; try discriminate.
    destruct (look_up (names_of Gpr) t); [discriminate|]. intros E. injection E as <-. exists h. reflexivity.
  - intros E. injection E as <-. exists h. reflexivity.
  - cbn [integer parse_immediate]. destruct v as [y h|h|]; try discriminate. intros E. injection E as <-. exists h. reflexivity.
Qed.
Lemma integer_not_register p z : integer p = Some z -> register Gpr p = None.
Proof.
  destruct p as [x|d t v|m|m h|v|b|m]; try discriminate; try reflexivity.
  cbn [integer register]. destruct d; [discriminate|]. destruct v as [y h|h|]; try discriminate.
  destruct (look_up (names_of Gpr) t); [discriminate|reflexivity].
Qed.

(** ** The form of a line *)

(** A register, a number, a symbol, or anything. *)
Inductive kind := KR | KI | KS (c : ascii) | KX.
Definition kind_of (k : kind) (p : piece) : Prop :=
  match k with
  | KR => exists n, register Gpr p = Some n
  | KI => exists z, integer p = Some z
  | KS c => p = PSym c
  | KX => True
  end.
Definition compat (it : item) (k : kind) : bool :=
  match it, k with
  | Reg Gpr _, KI | Reg _ _, KS _ | Imm _, KR | Imm _, KS _ | Punct _, KR | Punct _, KI => false
  | Punct c, KS d => Ascii.eqb c d
  | _, _ => true
  end.
Fixpoint fits (form : list item) (sh : list kind) : bool :=
  match form, sh with
  | [], [] => true
  | it :: form, k :: sh => if one_piece it then if compat it k then fits form sh else false else true
  | it :: _, [] => negb (one_piece it)
  | _, _ => false
  end.
Lemma compat_read name pc prim it p ps v r k : read_item name pc prim it (p :: ps) = Some (v, r) -> kind_of k p -> compat it k = true.
Proof.
  intros R K. destruct it as [rk f|vs f|f|f|f|f|f|f|f|f|f|f|f|f|f|f|w f| | |c]; try reflexivity; destruct k as [| |d|]; try reflexivity;
    try (destruct rk; reflexivity); cbn [kind_of] in K; cbn [read_item] in R; unfold first in R.
  - destruct K as [z K]. pose proof (integer_not_register _ _ K). destruct rk; try reflexivity. rewrite H in R. discriminate.
  - subst p. cbn [register] in R. discriminate.
  - destruct K as [n K]. rewrite (register_not_integer _ _ K) in R. discriminate.
  - subst p. cbn [integer] in R. discriminate.
  - destruct K as [n K]. destruct p; cbn in K; discriminate.
  - destruct K as [n K]. destruct p; cbn in K; discriminate.
  - subst p. cbn [compat]. destruct (Ascii.eqb c d); [reflexivity|discriminate].
Qed.
Lemma fits_read name pc : forall form prim ps sh vals, read_items name pc prim form ps = Some vals -> Forall2 kind_of sh ps ->
  fits form sh = true.
Proof.
  induction form as [|it form IH]; intros prim ps sh vals E F; cbn [read_items] in E.
  - destruct ps; [|discriminate]. inversion F. reflexivity.
  - destruct (read_item name pc prim it ps) as [[v r]|] eqn:R; [|discriminate].
    destruct (read_items name pc (next_prim it ps prim) form r) as [vs|] eqn:RS; [|discriminate].
    destruct (one_piece it) eqn:O.
    + destruct (read_one _ _ _ _ _ _ _ O R) as [p ->]. inversion F as [|k p' sh' r' K F' E1 E2]; subst. cbn [fits]. rewrite O.
      rewrite (compat_read _ _ _ _ _ _ _ _ _ R K). exact (IH _ _ _ _ RS F').
    + destruct sh; cbn [fits]; rewrite O; reflexivity.
Qed.

Definition regkind_eq_dec (a b : regkind) : {a = b} + {a <> b}. Proof. decide equality. Defined.
Definition slice_eq_dec (a b : slice) : {a = b} + {a <> b}. Proof. decide equality; apply Z.eq_dec. Defined.
Definition vscale_eq_dec (a b : vscale) : {a = b} + {a <> b}. Proof. decide equality. Defined.
Definition vecarg_eq_dec (a b : vecarg) : {a = b} + {a <> b}. Proof. decide equality. Defined.
Definition item_eq_dec (a b : item) : {a = b} + {a <> b}.
Proof.
  decide equality; try apply (list_eq_dec slice_eq_dec); try apply regkind_eq_dec; try apply vscale_eq_dec; try apply vecarg_eq_dec;
    apply Ascii.ascii_dec.
Defined.
Definition form_is (a b : list item) : bool := if list_eq_dec item_eq_dec a b then true else false.
(** Every entry under this name that the operands can be read as has this form and these fixed bits. *)
Definition unique (name : string) (sh : list kind) (form : list item) (base : Z) : bool :=
  forallb (fun i => if String.eqb (n_name i) name then
                      forallb (fun f => if fits f sh then if form_is f form then n_base i =? base else false else true) (n_forms i)
                    else true) isa.

Record word_of (name : string) (pc : Z) (form : list item) (base : Z) (ps : list piece) (w : Z) : Prop := mkWordOf {
  wo_vals : exists vals, read_items name pc 0 form ps = Some vals /\ Forall (holds w) vals;
  wo_range : 0 <= w < 2 ^ 32;
  wo_fixed : forall lo len, clear_of form lo len = true -> 0 <= lo -> 0 <= len -> lo + len <= 32 -> bits w lo len = bits base lo len }.

Lemma encodes_form a pc name ps w sh form base : encodes a pc name ps w -> Forall2 kind_of sh ps ->
  unique name sh form base = true -> word_of name pc form base ps w.
Proof.
  intros (ins & f & vals & INS & NAME & ON & FORM & READ & RANGE & HOLD & FIX) K U.
  unfold unique in U. rewrite forallb_forall in U. specialize (U _ INS). rewrite NAME, String.eqb_refl in U.
  rewrite forallb_forall in U. specialize (U _ FORM). rewrite (fits_read _ _ _ _ _ _ _ READ K) in U.
  unfold form_is in U. destruct (list_eq_dec item_eq_dec f form) as [E|]; [|discriminate]. subst f. apply Z.eqb_eq in U. subst base.
  constructor.
  - exists vals. split; assumption.
  - exact RANGE.
  - intros lo len C H1 H2 H3. exact (fixed_bits _ _ _ _ _ _ _ _ _ READ FIX C H1 H2 H3).
Qed.

(** An accepted line, up to the [nop] in front of it. *)
Definition one_word (out : mips_out) (w : Z) : Prop := x_words out = [w] \/ x_words out = [0; w].
Lemma line_form s ignore pc name ps out sh form base : mips_assemble s ignore pc name ps = ROk out ->
  irregular (ms_arch s) name ps = false -> Forall2 kind_of sh ps -> unique name sh form base = true ->
  exists w, one_word out w /\ word_of name pc form base ps w.
Proof.
  intros A I K U. destruct (assemble_encodes _ _ _ _ _ _ A I) as (w & W & EN). exists w.
  split; [destruct W as [W|[W _]]; [left|right]; exact W|]. exact (encodes_form _ _ _ _ _ _ _ _ EN K U).
Qed.

Lemma run_nop c ws : run (0 :: ws) c = run ws c.
Proof. reflexivity. Qed.
Lemma run_app ws : forall ws' c, run (ws ++ ws') c = match run ws c with Some c => run ws' c | None => None end.
Proof. induction ws as [|w ws IH]; intros ws' c; [reflexivity|]. cbn [app run]. destruct (exec w c); [apply IH|reflexivity]. Qed.
Lemma run_one out w c : one_word out w -> run (x_words out) c = exec w c.
Proof. intros [->| ->]; [|rewrite run_nop]; cbn [run]; destruct (exec w c); reflexivity. Qed.

Lemma set_same c r v : r <> 0 -> reg (set c r v) r = u32 v.
Proof. intros H. unfold set. destruct (Z.eqb_spec r 0); [contradiction|]. cbn [reg]. rewrite Z.eqb_refl. reflexivity. Qed.
Lemma set_other c r v x : x <> r -> reg (set c r v) x = reg c x.
Proof. intros H. unfold set. destruct (r =? 0); [reflexivity|]. cbn [reg]. destruct (Z.eqb_spec x r); [contradiction|reflexivity]. Qed.
Lemma set_ram c r v : ram (set c r v) = ram c.
Proof. unfold set. destruct (r =? 0); reflexivity. Qed.
Lemma sane_set c r v : sane c -> sane (set c r v).
Proof.
  intros (H0 & H1 & H2). unfold sane. rewrite set_ram. unfold set. destruct (Z.eqb_spec r 0) as [E|E]; [auto|]. cbn [reg].
  split; [|split; [|exact H2]].
  - destruct (Z.eqb_spec 0 r); [lia|exact H0].
  - intros x. destruct (x =? r); [|apply H1]. unfold u32. apply Z.mod_pos_bound. lia.
Qed.
Lemma set_u32 c r v : set c r (u32 v) = set c r v.
Proof.
  unfold set. destruct (r =? 0); [reflexivity|]. f_equal. unfold u32. rewrite Z.mod_mod by lia. reflexivity.
Qed.
Lemma set_eq c r v v' : u32 v = u32 v' -> set c r v = set c r v'.
Proof. intros E. rewrite <- (set_u32 c r v), <- (set_u32 c r v'), E. reflexivity. Qed.

Lemma bits5 n : 0 <= n < 32 -> bits n 0 5 = n.
Proof. intros H. apply bits_id; lia. Qed.

(** The values of a form. *)
Ltac read_form :=
  unfold s_, brackets; cbn [app args commas];
  repeat (cbn [read_items read_item]; unfold first; try change (Ascii.eqb "," ",") with true; try change (Ascii.eqb "(" "(") with true;
          try change (Ascii.eqb ")" ")") with true; cbv iota;
          try match goal with H : register ?k ?p = Some _ |- context [match register ?k ?p with _ => _ end] => rewrite H end;
          try match goal with H : integer ?p = Some _ |- context [match integer ?p with _ => _ end] => rewrite H end);
  cbn [fill map app]; rewrite ?app_nil_r; reflexivity.
Lemma read_r3 name pc f1 f2 f3 p q r a b c : register Gpr p = Some a -> register Gpr q = Some b -> register Gpr r = Some c ->
  read_items name pc 0 (args [Reg Gpr f1; Reg Gpr f2; Reg Gpr f3]) (commas [p; q; r]) = Some (fill f1 a ++ fill f2 b ++ fill f3 c).
Proof. intros. read_form. Qed.
Lemma read_r2 name pc f1 f2 p q a b : register Gpr p = Some a -> register Gpr q = Some b ->
  read_items name pc 0 (args [Reg Gpr f1; Reg Gpr f2]) (commas [p; q]) = Some (fill f1 a ++ fill f2 b).
Proof. intros. read_form. Qed.
Lemma read_r2i name pc f1 f2 f3 p q r a b z : register Gpr p = Some a -> register Gpr q = Some b -> integer r = Some z ->
  read_items name pc 0 (args [Reg Gpr f1; Reg Gpr f2; Imm f3]) (commas [p; q; r]) =
  Some (fill f1 a ++ fill f2 b ++ fill f3 (meant (immediate_of name) pc z)).
Proof. intros. read_form. Qed.
Lemma read_r1i name pc f1 f3 p r a z : register Gpr p = Some a -> integer r = Some z ->
  read_items name pc 0 (args [Reg Gpr f1; Imm f3]) (commas [p; r]) = Some (fill f1 a ++ fill f3 (meant (immediate_of name) pc z)).
Proof. intros. read_form. Qed.
Lemma read_mem name pc k f1 f2 p q r a b z : register k p = Some a -> integer q = Some z -> register Gpr r = Some b ->
  read_items name pc 0 ([Reg k f1; Punct ","; Imm f2] ++ brackets s_) [p; PSym ","; q; PSym "("; r; PSym ")"] =
  Some (fill f1 a ++ fill f2 (meant (immediate_of name) pc z) ++ fill RS b).
Proof. intros. read_form. Qed.
Lemma read_mem0 name pc k f1 p r a b : register k p = Some a -> register Gpr r = Some b ->
  read_items name pc 0 ([Reg k f1; Punct ","] ++ brackets s_) [p; PSym ","; PSym "("; r; PSym ")"] = Some (fill f1 a ++ fill RS b).
Proof. intros. read_form. Qed.

Lemma word_vals name pc form base ps w vals : word_of name pc form base ps w -> read_items name pc 0 form ps = Some vals -> Forall (holds w) vals.
Proof. intros [(v & R & H) _ _] E. rewrite E in R. injection R as <-. exact H. Qed.

Lemma kinds_r3 p q r a b c : register Gpr p = Some a -> register Gpr q = Some b -> register Gpr r = Some c ->
  Forall2 kind_of [KR; KS ","; KR; KS ","; KR] (commas [p; q; r]).
Proof. intros. repeat constructor; cbn [kind_of]; eauto. Qed.
Lemma kinds_r2 p q a b : register Gpr p = Some a -> register Gpr q = Some b -> Forall2 kind_of [KR; KS ","; KR] (commas [p; q]).
Proof. intros. repeat constructor; cbn [kind_of]; eauto. Qed.
Lemma kinds_r2i p q r a b z : register Gpr p = Some a -> register Gpr q = Some b -> integer r = Some z ->
  Forall2 kind_of [KR; KS ","; KR; KS ","; KI] (commas [p; q; r]).
Proof. intros. repeat constructor; cbn [kind_of]; eauto. Qed.
Lemma kinds_r1i p r a z : register Gpr p = Some a -> integer r = Some z -> Forall2 kind_of [KR; KS ","; KI] (commas [p; r]).
Proof. intros. repeat constructor; cbn [kind_of]; eauto. Qed.
Lemma kinds_mem p q r a b z : register Gpr p = Some a -> integer q = Some z -> register Gpr r = Some b ->
  Forall2 kind_of [KR; KS ","; KI; KS "("; KR; KS ")"] [p; PSym ","; q; PSym "("; r; PSym ")"].
Proof. intros. repeat constructor; cbn [kind_of]; eauto. Qed.

Lemma holds_reg w pos a : holds w (mkSlice pos 5 0, a) -> 0 <= a < 32 -> bits w pos 5 = a.
Proof. unfold holds. cbn [fst snd f_pos f_len f_skip]. intros -> H. apply bits5, H. Qed.

(** Turn the list of fields into equations and the fixed bits into numbers. *)
Ltac split_fields H :=
  repeat match type of H with
         | Forall _ [] => clear H
         | Forall _ (_ :: _) => let H1 := fresh "FLD" in pose proof (Forall_inv H) as H1; apply Forall_inv_tail in H
         end.
Ltac fixed FX lo len := rewrite (FX lo len) by (lia || (vm_compute; reflexivity)).

Definition alu (fn s t : Z) : Z :=
  match fn with
  | 0x21 => s + t | 0x23 => s - t | 0x25 => Z.lor s t | 0x26 => Z.lxor s t
  | 0x2A => b2z (s32 s <? s32 t) | 0x2B => b2z (s <? t) | _ => 0
  end.
Definition alu_names : list (string * Z) := [("addu", 0x21); ("subu", 0x23); ("or", 0x25); ("xor", 0x26); ("slt", 0x2A); ("sltu", 0x2B)].
Lemma alu_unique : forallb (fun x => unique (fst x) [KR; KS ","; KR; KS ","; KR] (args [d_; s_; t_]) (snd x)) alu_names = true.
Proof. vm_compute. reflexivity. Qed.
Ltac by_name N := cbn in N; repeat (destruct N as [N|N]; [injection N as <- <-|]); [..|destruct N].
(** The word of a line, with its fields; [K]: the kinds of the operands, [V]: the values of the form. *)
Ltac the_word A N K V UN :=
  let U := fresh "U" in let I := fresh "I" in let w := fresh "w" in let OW := fresh "OW" in let WO := fresh "WO" in let H := fresh "H" in
  let WR := fresh "WR" in let FX := fresh "FX" in
  pose proof UN as U; rewrite forallb_forall in U; specialize (U _ N); cbn [fst snd] in U;
  match type of A with mips_assemble ?s _ _ ?name ?ps = _ =>
    assert (I : irregular (ms_arch s) name ps = false) by (by_name N; destruct (ms_arch s); vm_compute; reflexivity)
  end;
  destruct (line_form _ _ _ _ _ _ _ _ _ A I K U) as (w & OW & WO);
  rewrite (run_one _ _ _ OW); pose proof (word_vals _ _ _ _ _ _ _ WO V) as H; clear I U;
  destruct WO as [_ WR FX]; cbn [fill map app RD RS RT SA fld] in H; split_fields H;
  repeat match goal with FLD : holds _ (mkSlice _ 5 0, ?a), R : register _ _ = Some ?a |- _ => apply holds_reg in FLD; [|exact (register_range _ _ _ R)] end;
  unfold exec, w_op, w_rs, w_rt, w_rd, w_fn, w_sa, w_simm, w_imm;
  repeat match goal with FLD : bits _ _ 5 = _ |- _ => rewrite FLD end.

Lemma exec_alu name fn s ignore pc p q r a b d out c : In (name, fn) alu_names ->
  mips_assemble s ignore pc name (commas [p; q; r]) = ROk out ->
  register Gpr p = Some d -> register Gpr q = Some a -> register Gpr r = Some b ->
  run (x_words out) c = Some (set c d (alu fn (reg c a) (reg c b))).
Proof.
  intros N A D RA RB. the_word A N (kinds_r3 _ _ _ _ _ _ D RA RB) (read_r3 name pc RD RS RT _ _ _ _ _ _ D RA RB) alu_unique.
  fixed FX 26 6. fixed FX 0 6. fixed FX 6 5. by_name N; reflexivity.
Qed.
Lemma alu2_unique : forallb (fun x => unique (fst x) [KR; KS ","; KR] (args [Reg Gpr (RS ++ RD); t_]) (snd x)) alu_names = true.
Proof. vm_compute. reflexivity. Qed.
Lemma exec_alu2 name fn s ignore pc p r b d out c : In (name, fn) alu_names ->
  mips_assemble s ignore pc name (commas [p; r]) = ROk out ->
  register Gpr p = Some d -> register Gpr r = Some b ->
  run (x_words out) c = Some (set c d (alu fn (reg c d) (reg c b))).
Proof.
  intros N A D RB. the_word A N (kinds_r2 _ _ _ _ D RB) (read_r2 name pc (RS ++ RD) RT _ _ _ _ D RB) alu2_unique.
  fixed FX 26 6. fixed FX 0 6. fixed FX 6 5. by_name N; reflexivity.
Qed.

Definition shift (code t n : Z) : Z :=
  match code with 0 => t * 2 ^ n | 2 => t / 2 ^ n | 3 => s32 t / 2 ^ n | _ => rotate_right t n end.
Definition shift_names : list (string * Z) := [("sll", 0); ("srl", 2); ("sra", 3); ("rotr", 2 + 2 ^ 21)].
Lemma shift_unique : forallb (fun x => unique (fst x) [KR; KS ","; KR; KS ","; KI] (args [d_; t_; sa_]) (snd x)) shift_names = true.
Proof. vm_compute. reflexivity. Qed.
Lemma shift2_unique : forallb (fun x => unique (fst x) [KR; KS ","; KI] (args [Reg Gpr (RD ++ RT); sa_]) (snd x)) shift_names = true.
Proof. vm_compute. reflexivity. Qed.
Lemma bits_sa w z : holds w (mkSlice 6 5 0, z) -> bits w 6 5 = z mod 32.
Proof. unfold holds. cbn [fst snd f_pos f_len f_skip]. intros ->. unfold bits. change (2 ^ 0) with 1. rewrite Z.div_1_r. reflexivity. Qed.
Lemma exec_shift name fn s ignore pc p q r a z d out c : In (name, fn) shift_names ->
  mips_assemble s ignore pc name (commas [p; q; r]) = ROk out ->
  register Gpr p = Some d -> register Gpr q = Some a -> integer r = Some z ->
  run (x_words out) c = Some (set c d (shift fn (reg c a) (z mod 32))).
Proof.
  intros N A D RA RZ.
  assert (M : meant (immediate_of name) pc z = z) by (by_name N; reflexivity).
  the_word A N (kinds_r2i _ _ _ _ _ _ D RA RZ) (read_r2i name pc RD RT SA _ _ _ _ _ _ D RA RZ) shift_unique.
  rewrite M in FLD1. apply bits_sa in FLD1. rewrite FLD1.
  fixed FX 26 6. fixed FX 0 6. fixed FX 21 5. by_name N; reflexivity.
Qed.
Lemma exec_shift2 name fn s ignore pc p r z d out c : In (name, fn) shift_names ->
  mips_assemble s ignore pc name (commas [p; r]) = ROk out ->
  register Gpr p = Some d -> integer r = Some z ->
  run (x_words out) c = Some (set c d (shift fn (reg c d) (z mod 32))).
Proof.
  intros N A D RZ.
  assert (M : meant (immediate_of name) pc z = z) by (by_name N; reflexivity).
  the_word A N (kinds_r1i _ _ _ _ D RZ) (read_r1i name pc (RD ++ RT) SA _ _ _ _ D RZ) shift2_unique.
  rewrite M in FLD1. apply bits_sa in FLD1. rewrite FLD1.
  fixed FX 26 6. fixed FX 0 6. fixed FX 21 5. by_name N; reflexivity.
Qed.

Definition shiftv (code t n : Z) : Z := match code with 4 => t * 2 ^ n | 6 => t / 2 ^ n | _ => rotate_right t n end.
Definition shiftv_names : list (string * Z) := [("sllv", 4); ("srlv", 6); ("rotrv", 6 + 2 ^ 6)].
Lemma shiftv_unique : forallb (fun x => unique (fst x) [KR; KS ","; KR; KS ","; KR] (args [d_; t_; s_]) (snd x)) shiftv_names = true.
Proof. vm_compute. reflexivity. Qed.
Lemma exec_shiftv name fn s ignore pc p q r a b d out c : In (name, fn) shiftv_names ->
  mips_assemble s ignore pc name (commas [p; q; r]) = ROk out ->
  register Gpr p = Some d -> register Gpr q = Some a -> register Gpr r = Some b ->
  run (x_words out) c = Some (set c d (shiftv fn (reg c a) (reg c b mod 32))).
Proof.
  intros N A D RA RB. the_word A N (kinds_r3 _ _ _ _ _ _ D RA RB) (read_r3 name pc RD RT RS _ _ _ _ _ _ D RA RB) shiftv_unique.
  fixed FX 26 6. fixed FX 0 6. fixed FX 6 5. by_name N; reflexivity.
Qed.

Definition one_names : list (string * Z) := [("negu", 0x23)].
Lemma one_unique : forallb (fun x => unique (fst x) [KR; KS ","; KR] (args [d_; t_]) (snd x)) one_names = true.
Proof. vm_compute. reflexivity. Qed.
Lemma exec_negu s ignore pc p r b d out c : mips_assemble s ignore pc "negu" (commas [p; r]) = ROk out ->
  register Gpr p = Some d -> register Gpr r = Some b -> run (x_words out) c = Some (set c d (reg c 0 - reg c b)).
Proof.
  intros A D RB. assert (N : In ("negu", 0x23) one_names) by (left; reflexivity).
  the_word A N (kinds_r2 _ _ _ _ D RB) (read_r2 "negu" pc RD RT _ _ _ _ D RB) one_unique.
  fixed FX 26 6. fixed FX 0 6. fixed FX 6 5. fixed FX 21 5. reflexivity.
Qed.
Definition move_names : list (string * Z) := [("move", 0x21)].
Lemma move_unique : forallb (fun x => unique (fst x) [KR; KS ","; KR] (args [d_; s_]) (snd x)) move_names = true.
Proof. vm_compute. reflexivity. Qed.
Lemma exec_move s ignore pc p r b d out c : mips_assemble s ignore pc "move" (commas [p; r]) = ROk out ->
  register Gpr p = Some d -> register Gpr r = Some b -> run (x_words out) c = Some (set c d (reg c b + reg c 0)).
Proof.
  intros A D RB. assert (N : In ("move", 0x21) move_names) by (left; reflexivity).
  the_word A N (kinds_r2 _ _ _ _ D RB) (read_r2 "move" pc RD RS _ _ _ _ D RB) move_unique.
  fixed FX 26 6. fixed FX 0 6. fixed FX 6 5. fixed FX 16 5. reflexivity.
Qed.

Definition immop (code s z : Z) : Z :=
  match code with
  | 9 => s + s16 z
  | 10 => b2z (s32 s <? s16 z)
  | 11 => b2z (s <? u32 (s16 z))
  | 13 => Z.lor s (z mod 65536)
  | 14 => Z.lxor s (z mod 65536)
  | _ => 0
  end.
Definition imm_names : list (string * Z) :=
  [("addiu", 9 * 2 ^ 26); ("slti", 10 * 2 ^ 26); ("sltiu", 11 * 2 ^ 26); ("ori", 13 * 2 ^ 26); ("xori", 14 * 2 ^ 26)].
Lemma imm_unique : forallb (fun x => unique (fst x) [KR; KS ","; KR; KS ","; KI] (args [t_; s_; i16_]) (snd x)) imm_names = true.
Proof. vm_compute. reflexivity. Qed.
Lemma imm2_unique : forallb (fun x => unique (fst x) [KR; KS ","; KI] (args [Reg Gpr (RS ++ RT); i16_]) (snd x)) imm_names = true.
Proof. vm_compute. reflexivity. Qed.
Lemma bits_i16 w z : holds w (mkSlice 0 16 0, z) -> bits w 0 16 = z mod 65536.
Proof. unfold holds. cbn [fst snd f_pos f_len f_skip]. intros ->. unfold bits. change (2 ^ 0) with 1. rewrite Z.div_1_r. reflexivity. Qed.
Lemma s16_mod16 z : s16 (z mod 65536) = s16 z.
Proof. rewrite <- (s16_bits z). unfold bits. change (2 ^ 0) with 1. rewrite Z.div_1_r. reflexivity. Qed.
Lemma exec_imm name fn s ignore pc p q r a z d out c : In (name, fn) imm_names ->
  mips_assemble s ignore pc name (commas [p; q; r]) = ROk out ->
  register Gpr p = Some d -> register Gpr q = Some a -> integer r = Some z ->
  run (x_words out) c = Some (set c d (immop (fn / 2 ^ 26) (reg c a) z)).
Proof.
  intros N A D RA RZ.
  assert (M : meant (immediate_of name) pc z = z) by (by_name N; reflexivity).
  the_word A N (kinds_r2i _ _ _ _ _ _ D RA RZ) (read_r2i name pc RT RS (fld 0 16) _ _ _ _ _ _ D RA RZ) imm_unique.
  rewrite M in FLD1. apply bits_i16 in FLD1. rewrite FLD1, s16_mod16.
  fixed FX 26 6. by_name N; reflexivity.
Qed.
Lemma exec_imm2 name fn s ignore pc p r z d out c : In (name, fn) imm_names ->
  mips_assemble s ignore pc name (commas [p; r]) = ROk out ->
  register Gpr p = Some d -> integer r = Some z ->
  run (x_words out) c = Some (set c d (immop (fn / 2 ^ 26) (reg c d) z)).
Proof.
  intros N A D RZ.
  assert (M : meant (immediate_of name) pc z = z) by (by_name N; reflexivity).
  the_word A N (kinds_r1i _ _ _ _ D RZ) (read_r1i name pc (RS ++ RT) (fld 0 16) _ _ _ _ D RZ) imm2_unique.
  rewrite M in FLD1. apply bits_i16 in FLD1. rewrite FLD1, s16_mod16.
  fixed FX 26 6. by_name N; reflexivity.
Qed.
Definition lui_names : list (string * Z) := [("lui", 15 * 2 ^ 26)].
Lemma lui_unique : forallb (fun x => unique (fst x) [KR; KS ","; KI] (args [t_; i16_]) (snd x)) lui_names = true.
Proof. vm_compute. reflexivity. Qed.
Lemma exec_lui s ignore pc p r z d out c : mips_assemble s ignore pc "lui" (commas [p; r]) = ROk out ->
  register Gpr p = Some d -> integer r = Some z -> run (x_words out) c = Some (set c d (z mod 65536 * 65536)).
Proof.
  intros A D RZ. assert (N : In ("lui", 15 * 2 ^ 26) lui_names) by (left; reflexivity).
  the_word A N (kinds_r1i _ _ _ _ D RZ) (read_r1i "lui" pc RT (fld 0 16) _ _ _ _ D RZ) lui_unique.
  change (meant (immediate_of "lui") pc z) with z in FLD0. apply bits_i16 in FLD0. rewrite FLD0.
  fixed FX 26 6. fixed FX 21 5. reflexivity.
Qed.
Definition nop_names : list (string * Z) := [("nop", 0)].
Lemma nop_unique : forallb (fun x => unique (fst x) [] [] (snd x)) nop_names = true.
Proof. vm_compute. reflexivity. Qed.
Lemma exec_nop s ignore pc out c : mips_assemble s ignore pc "nop" [] = ROk out -> run (x_words out) c = Some c.
Proof.
  intros A. assert (N : In ("nop", 0) nop_names) by (left; reflexivity).
  the_word A N (Forall2_nil kind_of) (eq_refl (Some (@nil (slice * Z)))) nop_unique.
  fixed FX 26 6. fixed FX 0 6. fixed FX 21 5. fixed FX 11 5. reflexivity.
Qed.

(** Loads and stores. *)
Record access_word (w op t b z : Z) : Prop := mkAccess {
  aw_op : bits w 26 6 = op; aw_rt : bits w 16 5 = t; aw_rs : bits w 21 5 = b; aw_imm : s16 (bits w 0 16) = s16 z }.
Definition mem_names : list (string * Z) :=
  [("lb", 0x20); ("lh", 0x21); ("lwl", 0x22); ("lw", 0x23); ("lbu", 0x24); ("lhu", 0x25); ("lwr", 0x26); ("lwu", 0x27);
   ("sb", 0x28); ("sh", 0x29); ("swl", 0x2A); ("sw", 0x2B); ("swr", 0x2E);
   ("ll", 0x30); ("lld", 0x34); ("ld", 0x37); ("sc", 0x38); ("scd", 0x3C); ("sd", 0x3F)].
Lemma mem_unique : forallb (fun x => unique (fst x) [KR; KS ","; KI; KS "("; KR; KS ")"]
  ([Reg Gpr RT; Punct ","; i16_] ++ brackets s_) (snd x * 2 ^ 26)) mem_names = true.
Proof. vm_compute. reflexivity. Qed.
Lemma line_mem name op s ignore pc p q r t b z out : In (name, op) mem_names ->
  mips_assemble s ignore pc name [p; PSym ","; q; PSym "("; r; PSym ")"] = ROk out ->
  register Gpr p = Some t -> integer q = Some z -> register Gpr r = Some b ->
  exists w, one_word out w /\ access_word w op t b z.
Proof.
  intros N A D RZ RB.
  assert (M : meant (immediate_of name) pc z = z) by (by_name N; reflexivity).
  pose proof mem_unique as U; rewrite forallb_forall in U; specialize (U _ N); cbn [fst snd] in U.
  assert (I : irregular (ms_arch s) name [p; PSym ","; q; PSym "("; r; PSym ")"] = false)
    by (by_name N; destruct (ms_arch s); vm_compute; reflexivity).
  destruct (line_form _ _ _ _ _ _ _ _ _ A I (kinds_mem _ _ _ _ _ _ D RZ RB) U) as (w & OW & WO).
  pose proof (word_vals _ _ _ _ _ _ _ WO (read_mem name pc Gpr RT (fld 0 16) _ _ _ _ _ _ D RZ RB)) as H.
  exists w. split; [exact OW|]. destruct WO as [_ _ FX]. cbn [fill map app RT RS fld] in H. split_fields H.
  rewrite M in FLD0. apply bits_i16 in FLD0. apply holds_reg in FLD; [|exact (register_range _ _ _ D)].
  apply holds_reg in FLD1; [|exact (register_range _ _ _ RB)].
  constructor; [|assumption..|rewrite FLD0; apply s16_mod16]. fixed FX 26 6. by_name N; reflexivity.
Qed.
Definition cop_names : list (string * Z) := [("lwc1", 0x31); ("ldc1", 0x35); ("swc1", 0x39); ("sdc1", 0x3D)].
Lemma cop_unique : forallb (fun x => unique (fst x) [KX; KS ","; KI; KS "("; KR; KS ")"]
  ([Reg Fpr RT; Punct ","; i16_] ++ brackets s_) (snd x * 2 ^ 26)) cop_names = true.
Proof. vm_compute. reflexivity. Qed.
Definition cop2_names : list (string * Z) := [("lwc2", 0x32); ("swc2", 0x3A)].
Lemma cop2_unique : forallb (fun x => unique (fst x) [KX; KS ","; KI; KS "("; KR; KS ")"]
  ([Reg GteData RT; Punct ","; i16_] ++ brackets s_) (snd x * 2 ^ 26)) cop2_names = true.
Proof. vm_compute. reflexivity. Qed.
Lemma kinds_cop p q r b z : integer q = Some z -> register Gpr r = Some b ->
  Forall2 kind_of [KX; KS ","; KI; KS "("; KR; KS ")"] [p; PSym ","; q; PSym "("; r; PSym ")"].
Proof. intros. repeat constructor; cbn [kind_of]; eauto. Qed.
Lemma read_first name pc k f form p r vals : read_items name pc 0 (Reg k f :: form) (p :: r) = Some vals -> exists n, register k p = Some n.
Proof. cbn [read_items read_item]. unfold first. destruct (register k p); [eauto|intros E; discriminate E]. Qed.
Lemma line_cop name op s ignore pc p q r t b z out : In (name, op) cop_names ->
  mips_assemble s ignore pc name [p; PSym ","; q; PSym "("; r; PSym ")"] = ROk out ->
  register Fpr p = Some t -> integer q = Some z -> register Gpr r = Some b ->
  exists w, one_word out w /\ access_word w op t b z.
Proof.
  intros N A D RZ RB.
  assert (M : meant (immediate_of name) pc z = z) by (by_name N; reflexivity).
  pose proof cop_unique as U; rewrite forallb_forall in U; specialize (U _ N); cbn [fst snd] in U.
  assert (I : irregular (ms_arch s) name [p; PSym ","; q; PSym "("; r; PSym ")"] = false)
    by (by_name N; destruct (ms_arch s); vm_compute; reflexivity).
  destruct (line_form _ _ _ _ _ _ _ _ _ A I (kinds_cop _ _ _ _ _ RZ RB) U) as (w & OW & WO).
  pose proof (word_vals _ _ _ _ _ _ _ WO (read_mem name pc Fpr RT (fld 0 16) _ _ _ _ _ _ D RZ RB)) as H.
  exists w. split; [exact OW|]. destruct WO as [_ _ FX]. cbn [fill map app RT RS fld] in H. split_fields H.
  rewrite M in FLD0. apply bits_i16 in FLD0. apply holds_reg in FLD; [|exact (register_range _ _ _ D)].
  apply holds_reg in FLD1; [|exact (register_range _ _ _ RB)].
  constructor; [|assumption..|rewrite FLD0; apply s16_mod16]. fixed FX 26 6. by_name N; reflexivity.
Qed.
(** [$n] is the only register that is both one of the floating-point unit and one of the GTE. *)
Definition gte_fpr_check : bool := forallb (fun x => match look_up (names_of GteData) (fst x) with None => true | Some _ => false end) (names_of Fpr).
Lemma look_up_in l s v : look_up l s = Some v -> In (s, v) l.
Proof.
  induction l as [|[n x] l IH]; cbn [look_up]; [discriminate|]. destruct (String.eqb_spec n s) as [->|]; intros E.
  - injection E as ->. left. reflexivity.
  - right. exact (IH E).
Qed.
Lemma gte_fpr p n m : register Fpr p = Some n -> register GteData p = Some m -> n = m.
Proof.
  destruct p; cbn [register]; try discriminate.
  - intros E E'. apply look_up_in in E. assert (C : gte_fpr_check = true) by (vm_compute; reflexivity).
    unfold gte_fpr_check in C. rewrite forallb_forall in C. specialize (C _ E). cbn [fst] in C. rewrite E' in C. discriminate.
  - cbn [dollar_ok]. intros ->. intros E. injection E as ->. reflexivity.
Qed.
Lemma line_cop2 name op s ignore pc p q r t b z out : In (name, op) cop2_names ->
  mips_assemble s ignore pc name [p; PSym ","; q; PSym "("; r; PSym ")"] = ROk out ->
  register Fpr p = Some t -> integer q = Some z -> register Gpr r = Some b ->
  exists w, one_word out w /\ access_word w op t b z.
Proof.
  intros N A D RZ RB.
  assert (M : meant (immediate_of name) pc z = z) by (by_name N; reflexivity).
  pose proof cop2_unique as U; rewrite forallb_forall in U; specialize (U _ N); cbn [fst snd] in U.
  assert (I : irregular (ms_arch s) name [p; PSym ","; q; PSym "("; r; PSym ")"] = false)
    by (by_name N; destruct (ms_arch s); vm_compute; reflexivity).
  destruct (line_form _ _ _ _ _ _ _ _ _ A I (kinds_cop _ _ _ _ _ RZ RB) U) as (w & OW & WO).
  assert (D' : register GteData p = Some t).
  { destruct WO as [(v & R & _) _ _]. apply read_first in R. destruct R as [m R]. rewrite (gte_fpr _ _ _ D R). exact R. }
  pose proof (word_vals _ _ _ _ _ _ _ WO (read_mem name pc GteData RT (fld 0 16) _ _ _ _ _ _ D' RZ RB)) as H.
  exists w. split; [exact OW|]. destruct WO as [_ _ FX]. cbn [fill map app RT RS fld] in H. split_fields H.
  rewrite M in FLD0. apply bits_i16 in FLD0. apply holds_reg in FLD; [|exact (register_range _ _ _ D)].
  apply holds_reg in FLD1; [|exact (register_range _ _ _ RB)].
  constructor; [|assumption..|rewrite FLD0; apply s16_mod16]. fixed FX 26 6. by_name N; reflexivity.
Qed.
Lemma access_word_of w op t b z c : access_word w op t b z -> among op
  [0x1A; 0x1B; 0x20; 0x21; 0x22; 0x23; 0x24; 0x25; 0x26; 0x27; 0x28; 0x29; 0x2A; 0x2B; 0x2C; 0x2D; 0x2E;
   0x30; 0x31; 0x32; 0x34; 0x35; 0x36; 0x37; 0x38; 0x39; 0x3A; 0x3C; 0x3D; 0x3E; 0x3F] = true ->
  access_of w c = Some (op, t, u32 (reg c b + s16 z)).
Proof.
  intros [E1 E2 E3 E4] AM. unfold access_of, is_access, w_op, w_rt, w_rs, w_simm, w_imm. rewrite E1, E2, E3, E4, AM. reflexivity.
Qed.

(** Conditional branches. *)
Definition br_names : list (string * Z) := [("beq", 4); ("bne", 5); ("beql", 0x14); ("bnel", 0x15)].
Lemma br_unique : forallb (fun x => unique (fst x) [KR; KS ","; KR; KS ","; KX] (args [s_; t_; i16_]) (snd x * 2 ^ 26)) br_names = true.
Proof. vm_compute. reflexivity. Qed.
Definition brz_names : list (string * Z) := [("beqz", 4); ("bnez", 5); ("beqzl", 0x14); ("bnezl", 0x15)].
Lemma brz_unique : forallb (fun x => unique (fst x) [KR; KS ","; KX] (args [s_; i16_]) (snd x * 2 ^ 26)) brz_names = true.
Proof. vm_compute. reflexivity. Qed.
Definition branch_word (op : Z) (eq : bool) : option (bool * bool) :=
  match op with 4 => Some (eq, false) | 5 => Some (negb eq, false) | 0x14 => Some (eq, true) | 0x15 => Some (negb eq, true) | _ => None end.
Lemma reads_last name pc f1 f2 f3 p q r vals : read_items name pc 0 (args [Reg Gpr f1; Reg Gpr f2; Imm f3]) (commas [p; q; r]) = Some vals ->
  exists z, integer r = Some z.
Proof.
  intros R. destruct (integer r) as [z|] eqn:E; [exists z; reflexivity|]. exfalso. revert R. cbn [args commas].
  repeat (cbn [read_items read_item]; unfold first; rewrite ?E; change (Ascii.eqb "," ",") with true; cbv iota;
          repeat match goal with |- context [register ?k ?p] => destruct (register k p) end).
  all: intros R; discriminate R.
Qed.
Lemma reads_last1 name pc f1 f3 p r vals : read_items name pc 0 (args [Reg Gpr f1; Imm f3]) (commas [p; r]) = Some vals ->
  exists z, integer r = Some z.
Proof.
  intros R. destruct (integer r) as [z|] eqn:E; [exists z; reflexivity|]. exfalso. revert R. cbn [args commas].
  repeat (cbn [read_items read_item]; unfold first; rewrite ?E; change (Ascii.eqb "," ",") with true; cbv iota;
          repeat match goal with |- context [register ?k ?p] => destruct (register k p) end).
  all: intros R; discriminate R.
Qed.
Lemma line_br name op s ignore pc p q r a b out c : In (name, op) br_names ->
  mips_assemble s ignore pc name (commas [p; q; r]) = ROk out ->
  register Gpr p = Some a -> register Gpr q = Some b ->
  exists w, one_word out w /\ branch_if w c = branch_word op (reg c a =? reg c b).
Proof.
  intros N A D RB.
  pose proof br_unique as U; rewrite forallb_forall in U; specialize (U _ N); cbn [fst snd] in U.
  assert (I : irregular (ms_arch s) name (commas [p; q; r]) = false)
    by (by_name N; destruct (ms_arch s); vm_compute; reflexivity).
  assert (K : Forall2 kind_of [KR; KS ","; KR; KS ","; KX] (commas [p; q; r])) by (repeat constructor; cbn [kind_of]; eauto).
  destruct (line_form _ _ _ _ _ _ _ _ _ A I K U) as (w & OW & WO).
  assert (RZ : exists z, integer r = Some z) by (destruct WO as [(v & R & _) _ _]; exact (reads_last _ _ _ _ _ _ _ _ _ R)).
  destruct RZ as [z RZ].
  pose proof (word_vals _ _ _ _ _ _ _ WO (read_r2i name pc RS RT (fld 0 16) _ _ _ _ _ _ D RB RZ)) as H.
  exists w. split; [exact OW|]. destruct WO as [_ _ FX]. cbn [fill map app RT RS fld] in H. split_fields H.
  apply holds_reg in FLD; [|exact (register_range _ _ _ D)]. apply holds_reg in FLD0; [|exact (register_range _ _ _ RB)].
  unfold branch_if, w_op, w_rs, w_rt. rewrite FLD, FLD0. fixed FX 26 6. by_name N; reflexivity.
Qed.
Lemma line_brz name op s ignore pc p r a out c : In (name, op) brz_names ->
  mips_assemble s ignore pc name (commas [p; r]) = ROk out ->
  register Gpr p = Some a ->
  exists w, one_word out w /\ branch_if w c = branch_word op (reg c a =? reg c 0).
Proof.
  intros N A D.
  pose proof brz_unique as U; rewrite forallb_forall in U; specialize (U _ N); cbn [fst snd] in U.
  assert (I : irregular (ms_arch s) name (commas [p; r]) = false)
    by (by_name N; destruct (ms_arch s); vm_compute; reflexivity).
  assert (K : Forall2 kind_of [KR; KS ","; KX] (commas [p; r])) by (repeat constructor; cbn [kind_of]; eauto).
  destruct (line_form _ _ _ _ _ _ _ _ _ A I K U) as (w & OW & WO).
  assert (RZ : exists z, integer r = Some z) by (destruct WO as [(v & R & _) _ _]; exact (reads_last1 _ _ _ _ _ _ _ R)).
  destruct RZ as [z RZ].
  pose proof (word_vals _ _ _ _ _ _ _ WO (read_r1i name pc RS (fld 0 16) _ _ _ _ D RZ)) as H.
  exists w. split; [exact OW|]. destruct WO as [_ _ FX]. cbn [fill map app RT RS fld] in H. split_fields H.
  apply holds_reg in FLD; [|exact (register_range _ _ _ D)].
  unfold branch_if, w_op, w_rs, w_rt. rewrite FLD. fixed FX 26 6. fixed FX 16 5. by_name N; reflexivity.
Qed.
