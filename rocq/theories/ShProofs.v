(** SuperH instructions: proofs. *)

Require Import ZArith Lia Bool List String Ascii.
Require Import ZifyBool.
Require Import Verif.Ints Verif.IntsLemmas Verif.BitFields Verif.Res Verif.ShTable Verif.ShModel Verif.ShSpec.
Import ListNotations.
Local Open Scope string_scope.
Local Open Scope list_scope.
Local Open Scope Z_scope.

(** ** What an operand string says *)

Definition scale_of (o : sh_opcode) : Z := if sh_has o SH_IMM16 then 2 else if sh_has o SH_IMM32 then 4 else 1.
Definition signed (b v : Z) : Z := if v <? 2 ^ (b - 1) then v else v - 2 ^ b.
Definition kind (o : sh_opcode) (b v : Z) : numeral :=
  if sh_has o SH_IMMREL then if sh_has o SH_IMMSIGNED then Branch (signed b v) else Target (scale_of o) v
  else if sh_has o SH_PCRELMANUAL then Distance (scale_of o) v
  else Field b (scale_of o) v.
Definition item_syms (o : sh_opcode) (s t v : Z) (it : sh_item) : list sym :=
  match it with
  | IForced f => [Word f]
  | IT => [Register t]
  | IS => [Register s]
  | IImm b => [Number (kind o b v)]
  | IAtT => [AtRegister t]
  | IAtS => [AtRegister s]
  | IAtSym c => [At; Char c]
  | ISym c => [Char c]
  end.
Definition gives_t (it : sh_item) : bool := match it with IT | IAtT => true | _ => false end.
Definition gives_s (it : sh_item) : bool := match it with IS | IAtS => true | _ => false end.
Definition gives_i (it : sh_item) : bool := match it with IImm _ => true | _ => false end.
Fixpoint once (f : sh_item -> bool) (its : list sh_item) : bool :=
  match its with
  | [] => true
  | it :: its => if f it then negb (existsb f its) else once f its
  end.

(** ** Deciding what the decoder says of every row *)

Definition numeral_eqb (a b : numeral) : bool :=
  match a, b with
  | Field w s d, Field w' s' d' => (w =? w') && (s =? s') && (d =? d')
  | Target s d, Target s' d' | Distance s d, Distance s' d' => (s =? s') && (d =? d')
  | Branch d, Branch d' => d =? d'
  | _, _ => false
  end.
Definition sym_eqb (a b : sym) : bool :=
  match a, b with
  | Register n, Register m | AtRegister n, AtRegister m => n =? m
  | At, At => true
  | Word s, Word t => String.eqb s t
  | Char c, Char d => Ascii.eqb c d
  | Number x, Number y => numeral_eqb x y
  | _, _ => false
  end.
Fixpoint syms_eqb (a b : list sym) : bool :=
  match a, b with
  | [], [] => true
  | x :: a, y :: b => if sym_eqb x y then syms_eqb a b else false
  | _, _ => false
  end.
Lemma numeral_eqb_eq a b : numeral_eqb a b = true -> a = b.
Proof. destruct a, b; cbn [numeral_eqb]; intros H; try discriminate; f_equal; lia. Qed.
Lemma sym_eqb_eq a b : sym_eqb a b = true -> a = b.
Proof.
  destruct a, b; cbn [sym_eqb]; intros H; try discriminate; try reflexivity; try (f_equal; lia).
  - f_equal. apply String.eqb_eq, H.
  - f_equal. apply Ascii.eqb_eq, H.
  - f_equal. apply numeral_eqb_eq, H.
Qed.
Lemma syms_eqb_eq a : forall b, syms_eqb a b = true -> a = b.
Proof.
  induction a as [|x a IH]; intros [|y b] H; try discriminate; [reflexivity|]. cbn [syms_eqb] in H.
  destruct (sym_eqb x y) eqn:E; [|discriminate]. f_equal; [apply sym_eqb_eq, E|apply IH, H].
Qed.

Definition upto (n : Z) : list Z := map Z.of_nat (seq 0 (Z.to_nat n)).
Lemma in_upto n x : 0 <= x < n -> In x (upto n).
Proof. intros H. unfold upto. apply in_map_iff. exists (Z.to_nat x). rewrite in_seq. lia. Qed.
Definition imm_bits (its : list sh_item) : option Z :=
  match find gives_i its with Some (IImm b) => Some b | _ => None end.
Definition choices_t (its : list sh_item) : list Z := if existsb gives_t its then upto 16 else [-1].
Definition choices_s (its : list sh_item) : list Z := if existsb gives_s its then upto 16 else [-1].
Definition choices_v (its : list sh_item) : list Z := match imm_bits its with Some b => upto (2 ^ b) | None => [0] end.
Definition decodes_to (o : sh_opcode) (its : list sh_item) (s t v : Z) : bool :=
  match sh_decode (sh_encode o s t v) with
  | Some (n, ops) => String.eqb n (sh_name o) && existsb (syms_eqb (flat_map (item_syms o s t v) its)) (spelled ops)
  | None => false
  end.
Definition flags_ok (o : sh_opcode) (its : list sh_item) : bool :=
  (if sh_has o SH_IMMREL || sh_has o SH_PCRELMANUAL then xorb (sh_has o SH_IMM16) (sh_has o SH_IMM32) else true) &&
  (if sh_has o SH_IMM16 then negb (sh_has o SH_IMM32) else true) &&
  (if sh_has o SH_IMMREL then negb (sh_has o SH_PCRELMANUAL) else true) &&
  (if sh_has o SH_IMMSIGNED then sh_has o SH_IMMREL && sh_has o SH_IMM16 else true) &&
  (match imm_bits its with Some b => (b =? 4) || (b =? 8) || (b =? 12) | None => true end).
Definition sh_row_ok (o : sh_opcode) : bool :=
  let its := row_items o in
  once gives_t its && once gives_s its && once gives_i its && flags_ok o its &&
  (match cut (sh_name o) with (_, Some b) => match snd (cut b) with None => true | _ => false end | _ => true end) &&
  forallb (fun s => forallb (fun t => forallb (decodes_to o its s t) (choices_v its)) (choices_t its)) (choices_s its).
Lemma sh_rows_ok : forallb sh_row_ok shOpcodes = true.
Proof. vm_compute. reflexivity. Qed.

(** ** Registers *)

Lemma register_table_in t s n : register_table t s = Some n -> In (s, n) t.
Proof.
  induction t as [|[m v] t IH]; [discriminate|]. cbn [register_table]. destruct (String.eqb_spec s m) as [->|]; intros E.
  - injection E as ->. left. reflexivity.
  - right. apply IH, E.
Qed.
Definition register_ok (x : string * Z) : bool :=
  (0 <=? snd x) && (snd x <? 16) &&
  (if first_at (fst x) then String.eqb (fst x) ("@" ++ reg_name (snd x)) else String.eqb (fst x) (reg_name (snd x))).
Lemma parseRegister_spec s v n : parseRegister (SName s v) = Some n ->
  0 <= n < 16 /\ (if first_at s then s = ("@" ++ reg_name n)%string else s = reg_name n).
Proof.
  cbn [parseRegister]. intros E. apply register_table_in in E.
  assert (K : forallb register_ok shRegisters = true) by (vm_compute; reflexivity).
  rewrite forallb_forall in K. specialize (K _ E). unfold register_ok in K. cbn [fst snd] in K.
  rewrite !andb_true_iff in K. destruct K as [[K1 K2] K3]. split; [lia|].
  destruct (first_at s); apply String.eqb_eq, K3.
Qed.
Lemma matchSymbol_eq c p : matchSymbol c p = true -> p = SSym c.
Proof.
  unfold matchSymbol. intros H. apply andb_true_iff in H. destruct H as [_ H]. destruct p as [| |d]; try discriminate.
  apply Ascii.eqb_eq in H. subst. reflexivity.
Qed.

(** ** Operands *)

Lemma keeps its : forall i ps j, parse_items its i ps = Some j ->
  (existsb gives_t its = false -> sh_grt j = sh_grt i) /\ (existsb gives_s its = false -> sh_grs j = sh_grs i) /\
  (existsb gives_i its = false -> sh_imm j = sh_imm i).
Proof.
  induction its as [|it its IH]; intros i ps j E.
  - destruct ps; [injection E as <-; auto|discriminate].
  - cbn [parse_items] in E. destruct ps as [|p ps]; [discriminate|].
    destruct it as [f| | |b| | |c|c]; cbn [existsb gives_t gives_s gives_i orb].
    + destruct p as [s v| |]; try discriminate. destruct (String.eqb s f); [|discriminate]. exact (IH _ _ _ E).
    + destruct (parseRegister p); [|discriminate]. destruct (IH _ _ _ E) as (A & B & C). cbn [sh_grs sh_imm] in *. split; [discriminate|auto].
    + destruct (parseRegister p); [|discriminate]. destruct (IH _ _ _ E) as (A & B & C). cbn [sh_grt sh_imm] in *. split; [auto|]. split; [discriminate|auto].
    + destruct (parseImmediate p); [|discriminate]. destruct (IH _ _ _ E) as (A & B & C). cbn [sh_grs sh_grt] in *. split; [auto|]. split; [auto|discriminate].
    + destruct p as [s v| |]; try discriminate. destruct (first_at s); [|discriminate]. destruct (parseRegister (SName s v)); [|discriminate].
      destruct (IH _ _ _ E) as (A & B & C). cbn [sh_grs sh_imm] in *. split; [discriminate|auto].
    + destruct p as [s v| |]; try discriminate. destruct (first_at s); [|discriminate]. destruct (parseRegister (SName s v)); [|discriminate].
      destruct (IH _ _ _ E) as (A & B & C). cbn [sh_grt sh_imm] in *. split; [auto|]. split; [discriminate|auto].
    + destruct p as [s v| |]; try discriminate. destruct ps as [|q ps]; [discriminate|]. destruct (first_at s && matchSymbol c q); [|discriminate].
      exact (IH _ _ _ E).
    + destruct (matchSymbol c p); [|discriminate]. exact (IH _ _ _ E).
Qed.

(** The registers are in range; the immediate is the one the operand string speaks of. *)
Lemma ranges its : forall i ps j, parse_items its i ps = Some j ->
  (existsb gives_t its = true -> 0 <= sh_grt j < 16 \/ once gives_t its = false) /\
  (existsb gives_s its = true -> 0 <= sh_grs j < 16 \/ once gives_s its = false) /\
  (forall b, imm_bits its = Some b -> (exists v, sh_imm j = Some (b, v)) \/ once gives_i its = false).
Proof.
  induction its as [|it its IH]; intros i ps j E; [cbn; split; [discriminate|split; discriminate]|].
  cbn [parse_items] in E. destruct ps as [|p ps]; [discriminate|].
  assert (PR : forall n, parseRegister p = Some n -> 0 <= n < 16).
  { intros n. destruct p as [s v| |]; try discriminate. intros R. apply parseRegister_spec in R. apply R. }
  unfold imm_bits. cbn [find existsb once].
  destruct it as [f| | |b| | |c|c]; cbn [gives_t gives_s gives_i orb].
  - destruct p as [s v| |]; try discriminate. destruct (String.eqb s f); [|discriminate]. exact (IH _ _ _ E).
  - destruct (parseRegister p) as [n|] eqn:R; [|discriminate]. destruct (IH _ _ _ E) as (A & B & C).
    split; [|split; assumption]. intros _. destruct (existsb gives_t its) eqn:X; [right; reflexivity|left].
    rewrite (proj1 (keeps _ _ _ _ E) X). exact (PR n eq_refl).
  - destruct (parseRegister p) as [n|] eqn:R; [|discriminate]. destruct (IH _ _ _ E) as (A & B & C).
    split; [assumption|split; [|assumption]]. intros _. destruct (existsb gives_s its) eqn:X; [right; reflexivity|left].
    rewrite (proj1 (proj2 (keeps _ _ _ _ E)) X). exact (PR n eq_refl).
  - destruct (parseImmediate p) as [v|] eqn:R; [|discriminate]. destruct (IH _ _ _ E) as (A & B & C).
    split; [assumption|split; [assumption|]]. intros b' EB. injection EB as <-. destruct (existsb gives_i its) eqn:X; [right; reflexivity|left].
    rewrite (proj2 (proj2 (keeps _ _ _ _ E)) X). exists v. reflexivity.
  - destruct p as [s v| |]; try discriminate. destruct (first_at s); [|discriminate].
    destruct (parseRegister (SName s v)) as [n|] eqn:R; [|discriminate]. destruct (IH _ _ _ E) as (A & B & C).
    split; [|split; assumption]. intros _. destruct (existsb gives_t its) eqn:X; [right; reflexivity|left].
    rewrite (proj1 (keeps _ _ _ _ E) X). exact (PR n eq_refl).
  - destruct p as [s v| |]; try discriminate. destruct (first_at s); [|discriminate].
    destruct (parseRegister (SName s v)) as [n|] eqn:R; [|discriminate]. destruct (IH _ _ _ E) as (A & B & C).
    split; [assumption|split; [|assumption]]. intros _. destruct (existsb gives_s its) eqn:X; [right; reflexivity|left].
    rewrite (proj1 (proj2 (keeps _ _ _ _ E)) X). exact (PR n eq_refl).
  - destruct p as [s v| |]; try discriminate. destruct ps as [|q ps]; [discriminate|]. destruct (first_at s && matchSymbol c q); [|discriminate].
    exact (IH _ _ _ E).
  - destruct (matchSymbol c p); [|discriminate]. exact (IH _ _ _ E).
Qed.

Lemma once_tail f it its : once f (it :: its) = true -> once f its = true /\ (f it = true -> existsb f its = false).
Proof.
  cbn [once]. destruct (f it); intros H; [|split; [exact H|discriminate]]. apply negb_true_iff in H. split; [|intros _; exact H].
  clear -H. induction its as [|x its IH]; [reflexivity|]. cbn [existsb] in H. apply orb_false_iff in H. destruct H as [H1 H2].
  cbn [once]. rewrite H1. apply IH, H2.
Qed.

Lemma parse_sound pc o v its : forall i ps j, parse_items its i ps = Some j ->
  once gives_t its = true -> once gives_s its = true -> once gives_i its = true ->
  (forall b, sh_imm j = Some (b, None) -> False) -> (forall b z, sh_imm j = Some (b, Some z) -> means pc (kind o b v) z) ->
  Forall2 (stands_for pc) (flat_map (item_syms o (sh_grs j) (sh_grt j) v) its) ps.
Proof.
  induction its as [|it its IH]; intros i ps j E OT OS OI NI MI.
  - destruct ps; [constructor|discriminate].
  - cbn [parse_items] in E. destruct ps as [|p ps]; [discriminate|].
    destruct (once_tail _ _ _ OT) as [OT' KT]. destruct (once_tail _ _ _ OS) as [OS' KS]. destruct (once_tail _ _ _ OI) as [OI' KI].
    cbn [flat_map]. destruct it as [f| | |b| | |c|c]; cbn [item_syms app gives_t gives_s gives_i] in *.
    + destruct p as [s w| |]; try discriminate. destruct (String.eqb_spec s f) as [->|]; [|discriminate].
      constructor; [reflexivity|exact (IH _ _ _ E OT' OS' OI' NI MI)].
    + destruct (parseRegister p) as [n|] eqn:R; [|discriminate]. constructor; [|exact (IH _ _ _ E OT' OS' OI' NI MI)].
      rewrite (proj1 (keeps _ _ _ _ E) (KT eq_refl)). cbn [sh_grt]. destruct p as [s w| |]; try discriminate R. apply parseRegister_spec in R.
      cbn [stands_for]. destruct R as [_ R]. destruct (first_at s); [right|left]; exact R.
    + destruct (parseRegister p) as [n|] eqn:R; [|discriminate]. constructor; [|exact (IH _ _ _ E OT' OS' OI' NI MI)].
      rewrite (proj1 (proj2 (keeps _ _ _ _ E)) (KS eq_refl)). cbn [sh_grs]. destruct p as [s w| |]; try discriminate R. apply parseRegister_spec in R.
      cbn [stands_for]. destruct R as [_ R]. destruct (first_at s); [right|left]; exact R.
    + destruct (parseImmediate p) as [w|] eqn:R; [|discriminate]. constructor; [|exact (IH _ _ _ E OT' OS' OI' NI MI)].
      pose proof (proj2 (proj2 (keeps _ _ _ _ E)) (KI eq_refl)) as W. cbn [sh_imm] in W.
      destruct w as [z|]; [|exfalso; exact (NI _ W)]. cbn [stands_for]. specialize (MI _ _ W).
      destruct p as [s x|reg x|c]; cbn [parseImmediate] in R; [destruct (register_table shRegisters s); [discriminate|]|destruct reg; [discriminate|]|discriminate];
        injection R as ->; exists z; split; [reflexivity|exact MI|reflexivity|exact MI].
    + destruct p as [s w| |]; try discriminate. destruct (first_at s) eqn:FA; [|discriminate].
      destruct (parseRegister (SName s w)) as [n|] eqn:R; [|discriminate]. constructor; [|exact (IH _ _ _ E OT' OS' OI' NI MI)].
      rewrite (proj1 (keeps _ _ _ _ E) (KT eq_refl)). cbn [sh_grt]. apply parseRegister_spec in R. rewrite FA in R. exact (proj2 R).
    + destruct p as [s w| |]; try discriminate. destruct (first_at s) eqn:FA; [|discriminate].
      destruct (parseRegister (SName s w)) as [n|] eqn:R; [|discriminate]. constructor; [|exact (IH _ _ _ E OT' OS' OI' NI MI)].
      rewrite (proj1 (proj2 (keeps _ _ _ _ E)) (KS eq_refl)). cbn [sh_grs]. apply parseRegister_spec in R. rewrite FA in R. exact (proj2 R).
    + destruct p as [s w| |]; try discriminate. destruct ps as [|q ps]; [discriminate|].
      destruct (first_at s && matchSymbol c q) eqn:FA; [|discriminate]. apply andb_true_iff in FA. destruct FA as [F1 F2].
      constructor; [|constructor; [|exact (IH _ _ _ E OT' OS' OI' NI MI)]].
      * destruct s as [|a s]; [discriminate F1|]. cbn [stands_for]. apply Ascii.eqb_eq, F1.
      * apply matchSymbol_eq in F2. subst q. reflexivity.
    + destruct (matchSymbol c p) eqn:F; [|discriminate]. constructor; [|exact (IH _ _ _ E OT' OS' OI' NI MI)].
      apply matchSymbol_eq in F. subst p. reflexivity.
Qed.

(** ** Mnemonics *)

Lemma cut_whole s : forall a, cut s = (a, None) -> a = s /\ forall n ps r, decodeOpcode s n ps = Some r -> n = s /\ ps = r.
Proof.
  induction s as [|c s IH]; intros a E; cbn [cut] in E.
  - injection E as <-. split; [reflexivity|]. intros n ps r D. cbn [decodeOpcode] in D. destruct n; [|discriminate]. injection D as <-. auto.
  - destruct (Ascii.eqb_spec c "/") as [->|NE]; [discriminate|]. destruct (cut s) as [a' b'] eqn:C. injection E as <- ->.
    destruct (IH a' eq_refl) as [-> H]. split; [reflexivity|]. intros n ps r D. cbn [decodeOpcode] in D.
    destruct (Ascii.eqb_spec c "/"); [contradiction|]. destruct n as [|d n]; [discriminate|].
    destruct (Ascii.eqb_spec c d) as [->|]; [|discriminate]. destruct (H _ _ _ D) as [-> ->]. auto.
Qed.
Lemma cut_parts s : forall a b, cut s = (a, Some b) -> snd (cut b) = None ->
  forall n ps r, decodeOpcode s n ps = Some r -> n = a /\ exists v, ps = SSym "/" :: SName b v :: r.
Proof.
  induction s as [|c s IH]; intros a b E NB n ps r D; cbn [cut] in E; [discriminate|]. cbn [decodeOpcode] in D.
  destruct (Ascii.eqb_spec c "/") as [->|NE].
  - injection E as <- <-. destruct n as [|d n]; [|discriminate]. destruct ps as [|[| |c] [|[m v| |] ps]]; try discriminate.
    destruct (Ascii.eqb_spec c "/") as [->|]; [|discriminate]. split; [reflexivity|].
    destruct (cut s) as [a0 b0] eqn:C. cbn [snd] in NB. subst b0. destruct (cut_whole s a0 C) as [-> H].
    destruct (H _ _ _ D) as [-> ->]. exists v. reflexivity.
  - destruct (cut s) as [a' b'] eqn:C. injection E as <- ->. destruct n as [|d n]; [discriminate|].
    destruct (Ascii.eqb_spec c d) as [->|]; [|discriminate]. destruct (IH a' b eq_refl NB _ _ _ D) as [-> X]. auto.
Qed.

(** ** Numbers *)

Lemma land_mask v b : 0 <= b -> Z.land v (2 ^ b - 1) = v mod 2 ^ b.
Proof. intros H. rewrite <- (Z.land_ones v b H). f_equal. rewrite Z.ones_equiv. lia. Qed.
Lemma s64_mod32 x : u32 (s64 x) = u32 x.
Proof. unfold u32, s64. destruct (x mod 18446744073709551616 <? 9223372036854775808); Z.div_mod_to_equations; lia. Qed.
Lemma s64_mod2 x : s64 x mod 2 = x mod 2.
Proof. unfold s64. destruct (x mod 18446744073709551616 <? 9223372036854775808); Z.div_mod_to_equations; lia. Qed.
Lemma s64_mod4 x : s64 x mod 4 = x mod 4.
Proof. unfold s64. destruct (x mod 18446744073709551616 <? 9223372036854775808); Z.div_mod_to_equations; lia. Qed.
Lemma u64_mod2 x : u64 x mod 2 = x mod 2.
Proof. unfold u64. Z.div_mod_to_equations; lia. Qed.
Lemma u64_mod4 x : u64 x mod 4 = x mod 4.
Proof. unfold u64. Z.div_mod_to_equations; lia. Qed.
Lemma s32_u32 x : u32 (s32 x) = u32 x.
Proof. unfold u32. apply s32_mod. Qed.

Lemma ROk_inj A (a b : A) : ROk a = ROk b -> a = b.
Proof. intros E. injection E as E. exact E. Qed.

Lemma rel_spec o pc : pc mod 2 = 0 -> (sh_has o SH_IMM32 = true -> sh_has o SH_IMM16 = false) ->
  sh_has o SH_IMM16 || sh_has o SH_IMM32 = true ->
  (if sh_has o SH_IMM32 then (pc + 4) - (pc + 4) mod 4 else pc + 4) = pc_base (scale_of o) pc /\
  pc_base (scale_of o) pc mod scale_of o = 0 /\ (scale_of o = 2 \/ scale_of o = 4).
Proof.
  unfold pc_base, scale_of. intros P X Y. destruct (sh_has o SH_IMM32).
  - rewrite (X eq_refl). change (4 =? 4) with true. cbn iota. repeat split; [| |auto]; Z.div_mod_to_equations; lia.
  - destruct (sh_has o SH_IMM16); [|discriminate]. change (2 =? 4) with false. cbn iota. repeat split; [|auto]. Z.div_mod_to_equations; lia.
Qed.

Definition aligned (o : sh_opcode) (v : Z) : Prop := v mod scale_of o = 0.
Lemma aligned_checks o v : (sh_has o SH_IMM16 = true -> sh_has o SH_IMM32 = false) ->
  (sh_has o SH_IMM16 && negb (u64 v mod 2 =? 0)) || (sh_has o SH_IMM32 && negb (u64 v mod 4 =? 0)) = false <-> aligned o v.
Proof.
  intros X. unfold aligned, scale_of. rewrite u64_mod2, u64_mod4.
  destruct (sh_has o SH_IMM16) eqn:A; [rewrite (X eq_refl)|destruct (sh_has o SH_IMM32)]; cbn [andb orb].
  - rewrite orb_false_r. destruct (v mod 2 =? 0) eqn:E; cbn [negb]; split; intros H; try discriminate; lia.
  - destruct (v mod 4 =? 0) eqn:E; cbn [negb]; split; intros H; try discriminate; lia.
  - rewrite Z.mod_1_r. split; reflexivity.
Qed.
Lemma shifted o v : (sh_has o SH_IMM16 = true -> sh_has o SH_IMM32 = false) ->
  (if sh_has o SH_IMM16 then Z.shiftr v 1 else if sh_has o SH_IMM32 then Z.shiftr v 2 else v) = v / scale_of o.
Proof.
  intros X. unfold scale_of. destruct (sh_has o SH_IMM16); [|destruct (sh_has o SH_IMM32)].
  - rewrite Z.shiftr_div_pow2 by lia. reflexivity.
  - rewrite Z.shiftr_div_pow2 by lia. reflexivity.
  - rewrite Z.div_1_r. reflexivity.
Qed.

Lemma pow_cases b : b = 4 \/ b = 8 \/ b = 12 -> (b = 4 /\ 2 ^ b = 16 /\ 2 ^ (b - 1) = 8) \/ (b = 8 /\ 2 ^ b = 256 /\ 2 ^ (b - 1) = 128) \/ (b = 12 /\ 2 ^ b = 4096 /\ 2 ^ (b - 1) = 2048).
Proof. intros [-> | [-> | ->]]; [left|right; left|right; right]; repeat split; reflexivity. Qed.

(** The last step: from a number to the field. *)
Lemma field_step o v b w : (sh_has o SH_IMM16 = true -> sh_has o SH_IMM32 = false) -> b = 4 \/ b = 8 \/ b = 12 ->
  (let v := if sh_has o SH_IMM16 then Z.shiftr v 1 else if sh_has o SH_IMM32 then Z.shiftr v 2 else v in
   let mask := 2 ^ b - 1 in
   if v =? -2147483648 then RUb else if Z.abs v >? mask then RErr else ROk (Z.land v mask)) = ROk w ->
  Z.abs (v / scale_of o) <= 2 ^ b - 1 /\ w = (v / scale_of o) mod 2 ^ b.
Proof.
  intros X B. cbv zeta. rewrite (shifted o v X). destruct (v / scale_of o =? -2147483648); [discriminate|].
  destruct (Z.abs (v / scale_of o) >? 2 ^ b - 1) eqn:E; [discriminate|]. intros H. apply ROk_inj in H. subst w.
  split; [lia|]. apply land_mask. lia.
Qed.

Record row_flags (o : sh_opcode) (b : Z) : Prop := {
  rf_rel : sh_has o SH_IMMREL || sh_has o SH_PCRELMANUAL = true -> sh_has o SH_IMM16 || sh_has o SH_IMM32 = true;
  rf_16 : sh_has o SH_IMM16 = true -> sh_has o SH_IMM32 = false;
  rf_man : sh_has o SH_IMMREL = true -> sh_has o SH_PCRELMANUAL = false;
  rf_signed : sh_has o SH_IMMSIGNED = true -> sh_has o SH_IMMREL = true /\ sh_has o SH_IMM16 = true;
  rf_bits : b = 4 \/ b = 8 \/ b = 12 }.
Lemma flags_rows o its b : flags_ok o its = true -> imm_bits its = Some b -> row_flags o b.
Proof.
  unfold flags_ok. intros F B. rewrite B in F. rewrite !andb_true_iff in F. destruct F as [[[[F1 F2] F3] F4] F5].
  constructor.
  - intros H. rewrite H in F1. destruct (sh_has o SH_IMM16), (sh_has o SH_IMM32); try discriminate; reflexivity.
  - intros H. rewrite H in F2. apply negb_true_iff, F2.
  - intros H. rewrite H in F3. apply negb_true_iff, F3.
  - intros H. rewrite H in F4. apply andb_true_iff, F4.
  - lia.
Qed.

Lemma signed_mod b v : b = 4 \/ b = 8 \/ b = 12 -> - 2 ^ (b - 1) <= v < 2 ^ (b - 1) -> signed b (v mod 2 ^ b) = v.
Proof.
  intros B R. unfold signed. destruct (pow_cases b B) as [(? & E1 & E2)|[(? & E1 & E2)|(? & E1 & E2)]]; rewrite E1, E2 in *;
    destruct (_ <? _) eqn:L; Z.div_mod_to_equations; lia.
Qed.

(** A distance that passes gives the address back. *)
Lemma back v rel scale num : num = s64 (v - rel) -> v mod scale = 0 -> rel mod scale = 0 -> scale = 2 \/ scale = 4 ->
  num = scale * (num / scale) /\ u32 v = u32 (rel + num).
Proof.
  intros -> V R S4. split.
  - destruct S4 as [-> | ->].
    + pose proof (s64_mod2 (v - rel)). Z.div_mod_to_equations; lia.
    + pose proof (s64_mod4 (v - rel)). Z.div_mod_to_equations; lia.
  - pose proof (s64_mod32 (v - rel)) as E. unfold u32 in *. Z.div_mod_to_equations; lia.
Qed.

Lemma sh_immediate_means o pc b z w : row_flags o b -> pc mod 2 = 0 -> sh_immediate o pc b z = ROk w ->
  0 <= w < 2 ^ b /\ means pc (kind o b w) z.
Proof.
  intros [FR F16 FM FS FB] P E. unfold sh_immediate in E.
  assert (F32 : sh_has o SH_IMM32 = true -> sh_has o SH_IMM16 = false) by (destruct (sh_has o SH_IMM16); auto; intros H; rewrite (F16 eq_refl) in H; discriminate).
  assert (PW : 0 < 2 ^ b) by (apply Z.pow_pos_nonneg; lia).
  destruct (sh_has o SH_IMMREL || sh_has o SH_PCRELMANUAL) eqn:RM.
  - specialize (FR eq_refl). destruct (rel_spec o pc P F32 FR) as (RE & RA & SC). rewrite RE in E.
    assert (V0 : exists v0, (if (sh_has o SH_IMM16 || sh_has o SH_IMM32) && sh_has o SH_PCRELMANUAL
           then if s32 (s32 z + s32 pc) =? s32 z + s32 pc then ROk (s32 z + s32 pc) else RUb
           else ROk (s32 z)) = ROk v0 /\ u32 v0 = u32 (if sh_has o SH_PCRELMANUAL then pc + z else z)).
    { rewrite FR in *. cbn [andb] in *. destruct (sh_has o SH_PCRELMANUAL).
      - destruct (s32 (s32 z + s32 pc) =? s32 z + s32 pc); [|discriminate E]. eexists. split; [reflexivity|].
        pose proof (s32_u32 z) as A. pose proof (s32_u32 pc) as B. unfold u32 in *. Z.div_mod_to_equations; lia.
      - eexists. split; [reflexivity|]. apply s32_u32. }
    destruct V0 as (v0 & V0 & U0). cbv zeta in E. rewrite V0 in E. cbn [rbind] in E.
    destruct (sh_has o SH_IMM16 && negb (u64 v0 mod 2 =? 0)) eqn:A1; [discriminate|].
    destruct (sh_has o SH_IMM32 && negb (u64 v0 mod 4 =? 0)) eqn:A2; [discriminate|].
    assert (AL : aligned o v0) by (apply aligned_checks; [exact F16|rewrite A1, A2; reflexivity]).
    set (hi := if sh_has o SH_IMMSIGNED then Z.quot (sh_range o b) 2 else sh_range o b) in E.
    set (lo := if sh_has o SH_IMMSIGNED then - Z.quot (sh_range o b) 2 else 0) in E.
    set (num := s64 (v0 - pc_base (scale_of o) pc)) in E.
    destruct ((num >? hi) || (num <? lo)) eqn:RG; [discriminate|]. cbn [rbind] in E.
    apply orb_false_iff in RG. destruct RG as [RG1 RG2].
    destruct (back v0 (pc_base (scale_of o) pc) (scale_of o) num eq_refl AL RA SC) as [B1 B2].
    assert (SM : s32 num = num).
    { apply s32_small. unfold hi, lo, sh_range in *. destruct (pow_cases b FB) as [(-> & E1 & E2)|[(-> & E1 & E2)|(-> & E1 & E2)]]; rewrite E1 in *;
        destruct (sh_has o SH_IMMSIGNED), (sh_has o SH_IMM32); Z.quot_rem_to_equations; lia. }
    rewrite SM in E. apply (field_step o num b w F16 FB) in E. destruct E as [E1 E2]. split; [subst w; apply Z.mod_pos_bound, PW|].
    unfold kind. destruct (sh_has o SH_IMMREL) eqn:IR.
    + rewrite (FM eq_refl) in U0. destruct (sh_has o SH_IMMSIGNED) eqn:SG.
      * destruct (FS eq_refl) as [_ I16]. assert (SO : scale_of o = 2) by (unfold scale_of; rewrite I16; reflexivity).
        assert (RB : signed b w = num / 2).
        { rewrite E2, SO. apply signed_mod; [exact FB|]. unfold hi, lo, sh_range in *. rewrite (F16 I16) in *. rewrite SO in *.
          destruct (pow_cases b FB) as [(-> & P1 & P2)|[(-> & P1 & P2)|(-> & P1 & P2)]]; rewrite P1 in *; rewrite P2;
            Z.quot_rem_to_equations; lia. }
        cbn [means]. rewrite RB, <- U0, B2, SO. unfold pc_base. change (2 =? 4) with false. cbn iota. rewrite SO in B1. rewrite <- B1. reflexivity.
      * assert (RB : w = num / scale_of o).
        { rewrite E2. apply Z.mod_small. split; [|lia]. apply Z.div_pos; unfold lo in RG2; lia. }
        cbn [means]. rewrite RB, <- U0, B2, <- B1. reflexivity.
    + cbn [orb] in RM. rewrite RM in *. destruct (sh_has o SH_IMMSIGNED) eqn:SG; [destruct (FS eq_refl); discriminate|].
      assert (RB : w = num / scale_of o).
      { rewrite E2. apply Z.mod_small. split; [|lia]. apply Z.div_pos; unfold lo in RG2; lia. }
      cbn [means]. rewrite RB, <- U0, B2, <- B1. reflexivity.
  - apply orb_false_iff in RM. destruct RM as [RM1 RM2]. rewrite RM2, andb_false_r in E. cbv zeta in E. cbn [rbind] in E.
    destruct (sh_has o SH_IMM16 && negb (u64 (s32 z) mod 2 =? 0)) eqn:A1; [discriminate|].
    destruct (sh_has o SH_IMM32 && negb (u64 (s32 z) mod 4 =? 0)) eqn:A2; [discriminate|].
    assert (AL : aligned o (s32 z)) by (apply aligned_checks; [exact F16|rewrite A1, A2; reflexivity]).
    cbn [rbind] in E. apply (field_step o (s32 z) b w F16 FB) in E. destruct E as [E1 E2]. split; [subst w; apply Z.mod_pos_bound, PW|].
    unfold kind. rewrite RM1, RM2. split; [exact AL|exact E2].
Qed.

Lemma parse_rows_in name ps t : forall o i, parse_rows name ps t = Some (o, i) -> In o t /\ parse_row name ps o = Some i.
Proof.
  induction t as [|a t IH]; intros o i E; [discriminate|]. cbn [parse_rows] in E. destruct (parse_row name ps a) as [j|] eqn:R.
  - injection E as <- <-. split; [left; reflexivity|exact R].
  - destruct (IH _ _ E). split; [right|]; assumption.
Qed.

Lemma imm_none its : imm_bits its = None -> existsb gives_i its = false.
Proof.
  unfold imm_bits. induction its as [|it its IH]; [reflexivity|]. cbn [find existsb]. destruct it; cbn [gives_i orb]; try exact IH. discriminate.
Qed.

Lemma row_ok o : In o shOpcodes -> sh_row_ok o = true.
Proof. exact (proj1 (forallb_forall sh_row_ok shOpcodes) sh_rows_ok o). Qed.

(** ** A line *)
Lemma even_pc pc : (Z.rem pc 2 =? 0) = true -> pc mod 2 = 0.
Proof. intros H. apply Z.eqb_eq in H. Z.quot_rem_to_equations; Z.div_mod_to_equations; lia. Qed.
Lemma row_value pc o its ps i v : once gives_i its = true -> flags_ok o its = true -> parse_items its sh_fresh ps = Some i ->
  sh_validate o pc i = ROk v ->
  In v (choices_v its) /\ (forall b, sh_imm i = Some (b, None) -> False) /\
  (forall b z, sh_imm i = Some (b, Some z) -> means pc (kind o b v) z).
Proof.
  intros OI FL PR V. unfold sh_validate in V. destruct (Z.rem pc 2 =? 0) eqn:PC; [|discriminate]. cbn [negb] in V.
  apply even_pc in PC. pose proof (keeps _ _ _ _ PR) as (KT & KS & KI). pose proof (ranges _ _ _ _ PR) as (RT & RS & RI). rewrite OI in RI.
  unfold choices_v. destruct (imm_bits its) as [b|] eqn:IB.
  - destruct (RI b eq_refl) as [(u & U)|]; [|discriminate]. rewrite U in V |- *. destruct u as [z|]; [|discriminate].
    destruct (sh_immediate_means o pc b z v (flags_rows _ _ _ FL IB) PC V) as [RG ME]. split; [apply in_upto, RG|].
    split; [discriminate|]. intros b' z' X. injection X as <- <-. exact ME.
  - rewrite (KI (imm_none _ IB)) in V |- *. cbn [sh_fresh sh_imm] in *. apply ROk_inj in V. subst v.
    split; [left; reflexivity|split; discriminate].
Qed.
Lemma row_t its ps i : once gives_t its = true -> parse_items its sh_fresh ps = Some i -> In (sh_grt i) (choices_t its).
Proof.
  intros OT PR. pose proof (keeps _ _ _ _ PR) as (KT & KS & KI). pose proof (ranges _ _ _ _ PR) as (RT & RS & RI). rewrite OT in RT.
  unfold choices_t. destruct (existsb gives_t its) eqn:X.
  - destruct (RT eq_refl); [apply in_upto; assumption|discriminate].
  - rewrite (KT eq_refl). left. reflexivity.
Qed.
Lemma row_s its ps i : once gives_s its = true -> parse_items its sh_fresh ps = Some i -> In (sh_grs i) (choices_s its).
Proof.
  intros OS PR. pose proof (keeps _ _ _ _ PR) as (KT & KS & KI). pose proof (ranges _ _ _ _ PR) as (RT & RS & RI). rewrite OS in RS.
  unfold choices_s. destruct (existsb gives_s its) eqn:X.
  - destruct (RS eq_refl); [apply in_upto; assumption|discriminate].
  - rewrite (KS eq_refl). left. reflexivity.
Qed.
Lemma forallb_in A (f : A -> bool) l x : forallb f l = true -> In x l -> f x = true.
Proof. intros H. revert x. apply forallb_forall, H. Qed.
Lemma row_decodes o its s t v : In s (choices_s its) -> In t (choices_t its) -> In v (choices_v its) ->
  forallb (fun s => forallb (fun t => forallb (decodes_to o its s t) (choices_v its)) (choices_t its)) (choices_s its) = true ->
  exists x, sh_decode (sh_encode o s t v) = Some x /\ fst x = sh_name o /\ In (flat_map (item_syms o s t v) its) (spelled (snd x)).
Proof.
  intros CS CT CV DE. pose proof (forallb_in _ _ _ _ DE CS) as D1. cbv beta in D1. pose proof (forallb_in _ _ _ _ D1 CT) as D2. cbv beta in D2.
  pose proof (forallb_in _ _ _ _ D2 CV) as D3. unfold decodes_to in D3.
  destruct (sh_decode (sh_encode o s t v)) as [[n ops]|]; [|discriminate]. exists (n, ops). split; [reflexivity|].
  apply andb_true_iff in D3. destruct D3 as [NE EX]. split; [apply String.eqb_eq, NE|]. apply existsb_exists in EX. destruct EX as (syms & IS & EQ).
  apply syms_eqb_eq in EQ. rewrite EQ. exact IS.
Qed.
Lemma name_parts s name ps r : (match cut s with (_, Some b) => match snd (cut b) with None => true | _ => false end | _ => true end) = true ->
  decodeOpcode s name ps = Some r ->
  match cut s with
  | (a, None) => name = a /\ ps = r
  | (a, Some b) => name = a /\ exists v, ps = SSym "/" :: SName b v :: r
  end.
Proof.
  intros C D. destruct (cut s) as [a [b|]] eqn:CT'.
  - destruct (cut b) as [? [?|]] eqn:CB; [discriminate|]. apply (cut_parts _ _ _ CT'); [rewrite CB; reflexivity|exact D].
  - destruct (cut_whole _ _ CT') as [-> H]. exact (H _ _ _ D).
Qed.
Lemma row_facts o : sh_row_ok o = true ->
  once gives_t (row_items o) = true /\ once gives_s (row_items o) = true /\ once gives_i (row_items o) = true /\ flags_ok o (row_items o) = true /\
  (match cut (sh_name o) with (_, Some b) => match snd (cut b) with None => true | _ => false end | _ => true end) = true /\
  forallb (fun s => forallb (fun t => forallb (decodes_to o (row_items o) s t) (choices_v (row_items o))) (choices_t (row_items o))) (choices_s (row_items o)) = true.
Proof.
  unfold sh_row_ok. generalize (row_items o). intros its. cbv zeta. rewrite !andb_true_iff. tauto.
Qed.
Lemma row_writes pc name ps o i v : sh_row_ok o = true -> parse_row name ps o = Some i -> sh_validate o pc i = ROk v ->
  exists x, sh_decode (sh_encode o (sh_grs i) (sh_grt i) v) = Some x /\ writes pc x name ps.
Proof.
  intros K PR V. unfold parse_row in PR. destruct (decodeOpcode (sh_name o) name ps) as [r|] eqn:D; [|discriminate].
  apply row_facts in K. destruct K as (OT & OS & OI & FL & CU & DE).
  destruct (row_value pc o _ r i v OI FL PR V) as (CV & NI & MI).
  destruct (row_decodes o _ _ _ v (row_s _ _ _ OS PR) (row_t _ _ _ OT PR) CV DE) as (x & DX & NX & SX).
  exists x. split; [exact DX|]. exists r. eexists. split; [exact SX|]. split; [exact (parse_sound pc o v _ _ _ _ PR OT OS OI NI MI)|].
  rewrite NX. exact (name_parts _ _ _ _ CU D).
Qed.

Theorem sh_assemble_writes pc name ps w : sh_assemble pc name ps = ROk w ->
  exists x, sh_decode w = Some x /\ writes pc x name ps.
Proof.
  unfold sh_assemble. destruct (parse_rows name ps shOpcodes) as [[o i]|] eqn:PR; [|discriminate].
  apply parse_rows_in in PR. destruct PR as [IN PR]. destruct (sh_validate o pc i) as [v| |] eqn:V; try discriminate. cbn [rbind].
  intros W. apply ROk_inj in W. subst w. exact (row_writes pc name ps o i v (row_ok o IN) PR V).
Qed.
