(** Every accepted MIPS instruction is the instruction that was written. *)

Require Import ZArith Lia Bool List String Ascii.
Require Import ZifyBool.
Require Import Verif.Ints Verif.IntsLemmas Verif.BitFields Verif.Res Verif.ArmModel Verif.MipsTable Verif.MipsModel Verif.MipsSpec Verif.MipsProofs.
Import ListNotations.
Local Open Scope Z_scope.

(** ** Where the fields come from *)

Inductive source := FromSlot (x : slot) | FromPrim | FromSec | FromCond.
Definition source_val (i : minst) (pv sv : Z) (s : source) : Z :=
  match s with FromSlot x => i_regs i x | FromPrim => pv | FromSec => sv | FromCond => i_vcond i end.
Definition valued (i : minst) (pv sv : Z) (x : slice * source) : slice * Z := (fst x, source_val i pv sv (snd x)).

Definition tok_source (t : tmpl) : source :=
  match tok_slot t with
  | Some x => FromSlot x
  | None => match t with TImm _ | TVec _ => FromPrim | TSec _ => FromSec | _ => FromCond end
  end.
Definition tok_sources (o : mips_opcode) (ts : list tmpl) : list (slice * source) :=
  flat_map (fun t => map (fun f => (f, tok_source t)) (tok_slices o t)) ts.
Lemma tok_fields_sources o i pv sv ts : flat_map (tok_fields o i pv sv) ts = map (valued i pv sv) (tok_sources o ts).
Proof.
  induction ts as [|t ts IH]; [reflexivity|]. unfold tok_sources. cbn [flat_map]. rewrite map_app.
  fold (tok_sources o ts). rewrite <- IH. f_equal. unfold tok_fields. rewrite map_map.
  unfold valued. cbn [fst snd]. unfold tok_slices, tok_value, tok_source.
  destruct (tok_slot t) as [x|] eqn:T; [reflexivity|]. destruct t; try reflexivity.
Qed.

(** The registers after [setOmittedRegisters], by name. *)
Definition put {A} (r : slot -> A) (x : slot) (v : A) : slot -> A := fun y => if slot_eq_dec y x then v else r y.
Definition omit {A} (o : mips_opcode) (r : slot -> A) : slot -> A :=
  let r := if mhas o MO_RSD then put r grd (r grs) else r in
  let r := if mhas o MO_RST then put r grt (r grs) else r in
  let r := if mhas o MO_RDT then put r grt (r grd) else r in
  let r := if mhas o MO_FRSD then put r frd (r frs) else r in
  if mhas o MO_RSP_VRSD then put r rspvrd (r rspvrs) else r.
Lemma put_step {A} (g : A -> Z) (r : mregs) (m : slot -> A) (b : bool) x y : (forall z, r z = g (m z)) ->
  forall z, (if b then set_reg r x (r y) else r) z = g ((if b then put m x (m y) else m) z).
Proof. intros H z. destruct b; [|apply H]. unfold set_reg, put. destruct (slot_eq_dec z x); apply H. Qed.
Lemma omit_spec {A} (g : A -> Z) o (r : mregs) (m : slot -> A) : (forall z, r z = g (m z)) ->
  forall z, setOmittedRegisters o r z = g (omit o m z).
Proof. intros H. unfold setOmittedRegisters, omit. cbv zeta. repeat apply put_step. exact H. Qed.

Definition slot_in (x : slot) (l : list slot) : bool := existsb (fun y => if slot_eq_dec x y then true else false) l.
Lemma slot_in_spec x l : slot_in x l = true <-> In x l.
Proof.
  unfold slot_in. rewrite existsb_exists. split.
  - intros (y & H & E). destruct (slot_eq_dec x y); [subst; assumption|discriminate].
  - intros H. exists x. split; [assumption|]. destruct (slot_eq_dec x x); [reflexivity|contradiction].
Qed.
Definition present (ts : list tmpl) (x : slot) : option slot := if slot_in x (flat_map tok_slots ts) then Some x else None.
Definition final (o : mips_opcode) (ts : list tmpl) : slot -> option slot := omit o (present ts).
Definition final_val (i : minst) (x : option slot) : Z := match x with Some y => i_regs i y | None => -1 end.

Definition sym_regs (o : mips_opcode) (ts : list tmpl) (l : list slot) : list (slice * source) :=
  flat_map (fun x => match final o ts x with Some y => map (fun f => (f, FromSlot y)) (slot_slices o x) | None => [] end) l.
Definition sym_parts (o : mips_opcode) (ts : list tmpl) : list (slice * source) :=
  if mhas o MO_VFPU then
    sym_regs o ts vfpu_slots ++ map (fun f => (f, FromPrim)) (primary_slices o (primary_of ts)) ++
    (if existsb is_cond ts then [(mkSlice 0 4 0, FromCond)] else [])
  else
    sym_regs o ts normal_slots ++ map (fun f => (f, FromPrim)) (primary_slices o (primary_of ts)) ++
    map (fun f => (f, FromSec)) (match secondary_of ts with Some ty => secondary_slices o ty | None => [] end).

Lemma sym_regs_spec o ts i pv sv r l :
  (forall x, r x = final_val i (final o ts x)) -> (forall x y, final o ts x = Some y -> 0 <= i_regs i y) ->
  flat_map (fun x => part r x (slot_slices o x)) l = map (valued i pv sv) (sym_regs o ts l).
Proof.
  intros R P. induction l as [|x l IH]; [reflexivity|]. unfold sym_regs. cbn [flat_map]. rewrite map_app.
  fold (sym_regs o ts l). rewrite <- IH. f_equal. unfold part. rewrite R. pose proof (P x) as Q.
  destruct (final o ts x) as [y|]; cbn [final_val].
  - specialize (Q y eq_refl). destruct (Z.eqb_spec (i_regs i y) (-1)); [lia|]. rewrite map_map. reflexivity.
  - reflexivity.
Qed.
Lemma map_prim i pv sv (l : list slice) : map (fun f => (f, pv)) l = map (valued i pv sv) (map (fun f => (f, FromPrim)) l).
Proof. rewrite map_map. reflexivity. Qed.
Lemma map_sec i pv sv (l : list slice) : map (fun f => (f, sv)) l = map (valued i pv sv) (map (fun f => (f, FromSec)) l).
Proof. rewrite map_map. reflexivity. Qed.

Lemma word_parts_sym o ts i pv sv r st :
  (forall x, r x = final_val i (final o ts x)) -> (forall x y, final o ts x = Some y -> 0 <= i_regs i y) ->
  (if existsb is_cond ts then 0 <= i_vcond i else i_vcond i = -1) ->
  (secondary_of ts = Some st \/ secondary_of ts = None) ->
  word_parts o r (primary_of ts) pv st sv (i_vcond i) =
  map (valued i pv sv) (sym_parts o ts) ++
  (match secondary_of ts with Some _ => [] | None => map (fun f => (f, sv)) (secondary_slices o st) end).
Proof.
  intros R P C S. unfold word_parts, sym_parts. destruct (mhas o MO_VFPU) eqn:V.
  - rewrite (sym_regs_spec o ts i pv sv r) by assumption. rewrite !map_app, <- map_prim.
    assert (E : match secondary_of ts with Some _ => [] | None => map (fun f => (f, sv)) (secondary_slices o st) end = []).
    { destruct (secondary_of ts); [reflexivity|]. unfold secondary_slices. rewrite V. reflexivity. }
    rewrite E, app_nil_r. do 2 f_equal.
    destruct (existsb is_cond ts); [|rewrite C; reflexivity]. destruct (Z.eqb_spec (i_vcond i) (-1)); [lia|reflexivity].
  - rewrite (sym_regs_spec o ts i pv sv r) by assumption. rewrite !map_app, <- map_prim, <- map_sec, <- !app_assoc.
    do 2 f_equal. destruct S as [S|S]; rewrite S; [rewrite app_nil_r; reflexivity|reflexivity].
Qed.

(** ** Names *)

Definition suffixes : list (ascii * Z) := [("s", 0); ("p", 1); ("t", 2); ("q", 3)]%char.
Fixpoint expansions (pattern : string) : list (string * option Z * option Z) :=
  match pattern with
  | EmptyString => [(EmptyString, None, None)]
  | String "S" p =>
    flat_map (fun c => map (fun x => let '(n, sz, cc) := x in
                                     (String (fst c) n, match sz with None => Some (snd c) | Some _ => sz end, cc))
                           (expansions p)) suffixes
  | String "B" p =>
    flat_map (fun c => flat_map (fun x => let '(n, sz, cc) := x in
                                          match n with
                                          | EmptyString => [(fst c, sz, match cc with None => Some (snd c) | Some _ => cc end)]
                                          | _ => []
                                          end)
                                (expansions p)) cop2Conditions
  | String a p => map (fun x => let '(n, sz, cc) := x in (String a n, sz, cc)) (expansions p)
  end.
Definition named (i : minst) (sz cc : option Z) : minst :=
  let i := match sz with Some v => set_vsize i v | None => i end in
  match cc with Some v => set_secondary i Cop2BranchType None v | None => i end.
Lemma decodeVfpuType_in c v : decodeVfpuType c = Some v -> In (c, v) suffixes.
Proof.
  unfold decodeVfpuType, suffixes. cbn [In].
  destruct (Ascii.eqb_spec c "s"); [subst; intros E; injection E as <-; auto|].
  destruct (Ascii.eqb_spec c "p"); [subst; intros E; injection E as <-; auto|].
  destruct (Ascii.eqb_spec c "t"); [subst; intros E; injection E as <-; auto|].
  destruct (Ascii.eqb_spec c "q"); [subst; intros E; injection E as <-; auto|discriminate].
Qed.
Definition plain_step (a : ascii) (p name : string) (i : minst) : option minst :=
  match name with
  | String c n => if Ascii.eqb a c then decodeOpcode p n i else None
  | EmptyString => None
  end.
Lemma decode_cases a p name i :
  (a = "S"%char /\ decodeOpcode (String a p) name i =
     match name with
     | String c n => match decodeVfpuType c with Some v => decodeOpcode p n (set_vsize i v) | None => None end
     | EmptyString => None
     end) \/
  (a = "B"%char /\ decodeOpcode (String a p) name i =
     match find_name cop2Conditions name with
     | Some v => decodeOpcode p EmptyString (set_secondary i Cop2BranchType None v)
     | None => None
     end) \/
  (decodeOpcode (String a p) name i = plain_step a p name i /\
   expansions (String a p) = map (fun x => let '(n, sz, cc) := x in (String a n, sz, cc)) (expansions p)).
Proof.
  destruct a as [[] [] [] [] [] [] [] []]; first [right; right; split; reflexivity|left; split; reflexivity|right; left; split; reflexivity].
Qed.
Lemma named_twice_size i v sz cc : named (set_vsize i v) sz cc = named i (match sz with None => Some v | Some _ => sz end) cc.
Proof. destruct sz, cc; reflexivity. Qed.
Lemma named_twice_cc i v sz cc : named (set_secondary i Cop2BranchType None v) sz cc =
  named i sz (match cc with None => Some v | Some _ => cc end).
Proof. destruct sz, cc; reflexivity. Qed.
Lemma decode_expansions pattern : forall name i j, decodeOpcode pattern name i = Some j ->
  exists sz cc, In (name, sz, cc) (expansions pattern) /\ j = named i sz cc.
Proof.
  induction pattern as [|a p IH]; intros name i j E.
  - cbn [decodeOpcode] in E. destruct name; [|discriminate]. injection E as <-. exists None, None.
    split; [left; reflexivity|reflexivity].
  - destruct (decode_cases a p name i) as [(-> & D)|[(-> & D)|(D & X)]]; rewrite D in E.
    + destruct name as [|c n]; [discriminate|]. destruct (decodeVfpuType c) as [v|] eqn:T; [|discriminate].
      apply IH in E. destruct E as (sz & cc & H & ->). rewrite named_twice_size. eexists _, cc. split; [|reflexivity].
      cbn [expansions]. apply in_flat_map. exists (c, v). split; [apply decodeVfpuType_in, T|].
      apply in_map_iff. exists (n, sz, cc). split; [reflexivity|assumption].
    + destruct (find_name cop2Conditions name) as [v|] eqn:T; [|discriminate].
      apply IH in E. destruct E as (sz & cc & H & ->). rewrite named_twice_cc. eexists sz, _. split; [|reflexivity].
      cbn [expansions]. apply in_flat_map. exists (name, v). split; [apply find_name_in, T|].
      apply in_flat_map. exists (EmptyString, sz, cc). split; [assumption|]. left. reflexivity.
    + unfold plain_step in E. destruct name as [|c n]; [discriminate|]. destruct (Ascii.eqb_spec a c) as [->|]; [|discriminate].
      apply IH in E. destruct E as (sz & cc & H & ->). exists sz, cc. split; [|reflexivity]. rewrite X.
      apply in_map_iff. exists (n, sz, cc). split; [reflexivity|assumption].
Qed.

(** ** The check of a row *)

Definition source_eqb (a b : source) : bool :=
  match a, b with
  | FromSlot x, FromSlot y => if slot_eq_dec x y then true else false
  | FromPrim, FromPrim | FromSec, FromSec | FromCond, FromCond => true
  | _, _ => false
  end.
Definition field_in (x : slice * source) (l : list (slice * source)) : bool :=
  existsb (fun y => slice_eqb (fst x) (fst y) && source_eqb (snd x) (snd y)) l.
Lemma field_in_spec x l : field_in x l = true -> In x l.
Proof.
  unfold field_in. rewrite existsb_exists. intros ([f s] & H & E). apply andb_true_iff in E. destruct E as [E1 E2].
  destruct x as [f' s']. cbn [fst snd] in *. apply slice_eqb_eq in E1. subst f'.
  enough (s' = s) by (subst; assumption).
  destruct s', s; try discriminate E2; try reflexivity. cbn in E2. destruct (slot_eq_dec x x0); [subst; reflexivity|discriminate].
Qed.
Definition covers (k : Z) (f : slice) : bool := (f_pos f <=? k) && (k <? f_pos f + f_len f).
Definition word_bits : list Z := map Z.of_nat (seq 0 32).
Lemma in_word_bits k : 0 <= k < 32 -> In k word_bits.
Proof. intros H. unfold word_bits. apply in_map_iff. exists (Z.to_nat k). rewrite in_seq. lia. Qed.

Definition effective (o : mips_opcode) (sz : option Z) : Z :=
  match sz with
  | Some v => v
  | None => if mhas o MO_VFPU_SINGLE then 0 else if mhas o MO_VFPU_PAIR then 1
            else if mhas o MO_VFPU_TRIPLE then 2 else if mhas o MO_VFPU_QUAD then 3 else -1
  end.
Definition row_base (o : mips_opcode) (sz cc : option Z) : Z :=
  if mhas o MO_VFPU then Z.lor (m_dest o) (size_bits o (effective o sz))
  else match cc with Some v => Z.lor (m_dest o) (Z.shiftl v 18) | None => m_dest o end.

Definition ins_shape (name : string) (ts : list tmpl) : bool :=
  match ts with
  | [TReg _ _; TSym _; TReg _ _; TSym _; TImm Immediate5; TSym _; TSec Ins] => String.eqb name "ins"
  | _ => false
  end.
(** What does not depend on the form. *)
Definition row_sound (o : mips_opcode) (name : string) (sz cc : option Z) : bool :=
  let ts := template (m_encoding o) in
  let fs := tok_sources o ts in
  let ps := sym_parts o ts in
  order_ok ts && forallb (slot_fits o) ts &&
  implb (existsb is_ins ts) (existsb is_primary ts && ins_shape name ts && meaning_eqb (flag_meaning o) Plain) &&
  (match sz with Some v => (0 <=? v) | None => true end) &&
  (match cc with
   | Some v => (0 <=? v) && (v <? 8) && (match secondary_of ts with None => true | _ => false end)
   | None => true
   end) &&
  (match secondary_of ts with None | Some CacheOp | Some Ext | Some Ins | Some Cop2BranchType => true | _ => false end) &&
  implb (mhas o MO_VFPU) (negb (mhas o MO_VFPU_6BIT)) &&
  implb (negb (mhas o MO_VFPU) && mhas o MO_VFPU_MIXED) (match final o ts vrt with Some _ => true | None => false end) &&
  implb (mhas o MO_IMMALIGNED) (meaning_eqb (flag_meaning o) Plain) &&
  forallb (fun x => match final o ts x with Some y => slot_in y (flat_map tok_slots ts) && (slot_bound o y =? slot_bound o x) | None => true end)
    (normal_slots ++ vfpu_slots) &&
  forallb (fun x => field_in x ps) fs && forallb (fun x => field_in x fs) ps &&
  forallb (fun x => (0 <=? f_pos (fst x)) && (0 <=? f_len (fst x)) && (0 <=? f_skip (fst x)) && (f_pos (fst x) + f_len (fst x) <=? 32)) fs &&
  forallb (fun k => let c := filter (fun x => covers k (fst x)) fs in
                    match c with
                    | [] => true
                    | [_] => negb (Z.testbit (row_base o sz cc) k)
                    | _ => false
                    end) word_bits.
Definition skipped (a : mips_arch) (name : string) (ts : list tmpl) : bool :=
  (mem name ["wsbh"; "wsbw"; "seb"; "bitrev"; "seh"]%string && match ts with [TReg _ _] => true | _ => false end) ||
  mem (stem name) ["vcmovt"; "vcmovf"]%string ||
  (arch_eqb a PS2 && mem name ["sqrt.s"; "rsqrt.w.s"]%string).
Definition expansion_ok (a : mips_arch) (o : mips_opcode) (x : string * option Z * option Z) : bool :=
  let '(name, sz, cc) := x in
  let ts := template (m_encoding o) in
  if skipped a name ts then true else
  (row_sound o name sz cc &&
   existsb (fun ins => if negb (String.eqb (n_name ins) name) then false else
                       existsb (arch_eqb a) (n_on ins) &&
                       forallb (fun k => Bool.eqb (Z.testbit (n_base ins) k) (Z.testbit (row_base o sz cc) k)) word_bits &&
                       existsb (tokens_items_ok o (effective o sz) name ts) (n_forms ins)) isa).
Definition row_ok (a : mips_arch) (o : mips_opcode) : bool :=
  if negb (row_available a o) then true else forallb (expansion_ok a o) (expansions (m_name o)).
Definition all_archs : list mips_arch := [PSX; N64; PS2; PSP; RSP].
Lemma rows_ok : forallb (fun a => forallb (row_ok a) MipsOpcodes) all_archs = true.
Proof. vm_compute. reflexivity. Qed.

(** ** From the bits to the fields *)

Lemma unique_bit k (l : list (slice * Z)) x : (List.length (filter (fun y => covers k (fst y)) l) <= 1)%nat ->
  In x l -> covers k (fst x) = true -> existsb (field_bit k) l = field_bit k x.
Proof.
  induction l as [|y l IH]; [contradiction|]. cbn [filter existsb]. intros L Hin C.
  assert (N : forall y, covers k (fst y) = false -> field_bit k y = false).
  { intros z Hz. unfold field_bit. unfold covers in Hz. rewrite Hz. reflexivity. }
  assert (Z : forall l, filter (fun y : slice * Z => covers k (fst y)) l = [] -> existsb (field_bit k) l = false).
  { clear - N. induction l as [|y l IH]; [reflexivity|]. cbn [filter existsb]. destruct (covers k (fst y)) eqn:E; [discriminate|].
    intros H. rewrite (N y E), IH by assumption. reflexivity. }
  destruct (covers k (fst y)) eqn:E.
  - cbn [List.length] in L. destruct (filter (fun y => covers k (fst y)) l) eqn:F; [|cbn [List.length] in L; lia].
    rewrite (Z l F), orb_false_r. destruct Hin as [->|Hin]; [reflexivity|].
    exfalso. assert (I : In x (filter (fun y => covers k (fst y)) l)) by (apply filter_In; auto). rewrite F in I. destruct I.
  - rewrite (N y E). cbn [orb]. destruct Hin as [->|Hin]; [congruence|]. apply IH; assumption.
Qed.
Lemma filter_map_len {A B} (f : A -> B) (p : B -> bool) l :
  List.length (filter p (map f l)) = List.length (filter (fun x => p (f x)) l).
Proof. induction l as [|x l IH]; [reflexivity|]. cbn [map filter]. destruct (p (f x)); cbn [List.length]; congruence. Qed.

Lemma same_bits {A} (f : A -> bool) l m : (forall x, In x l -> In x m) -> (forall x, In x m -> In x l) ->
  existsb f l = existsb f m.
Proof.
  intros H1 H2. apply eq_true_iff_eq. rewrite !existsb_exists. split; intros (x & Hx & E); exists x; auto.
Qed.

Lemma fields_hold o name sz cc i pv sv w base vals :
  row_sound o name sz cc = true ->
  (forall k, 0 <= k < 32 -> Z.testbit base k = Z.testbit (row_base o sz cc) k) ->
  adds base w (map (valued i pv sv) (sym_parts o (template (m_encoding o)))) ->
  Forall2 same_field vals (map (valued i pv sv) (tok_sources o (template (m_encoding o)))) ->
  Forall (holds w) vals /\
  forall k, 0 <= k < 32 -> (forall x, In x vals -> ~ inside k (fst x)) -> Z.testbit w k = Z.testbit base k.
Proof.
  intros RS BASE ADD F. unfold row_sound in RS. cbv zeta in RS. rewrite !andb_true_iff in RS.
  destruct RS as [[[[_ S1] S2] SL] UB].
  set (fs := tok_sources o (template (m_encoding o))) in *. set (ps := sym_parts o (template (m_encoding o))) in *.
  set (L := map (valued i pv sv) fs) in *.
  assert (BITS : forall k, 0 <= k < 32 -> Z.testbit w k = Z.testbit base k || existsb (field_bit k) L).
  { intros k Hk. rewrite (ADD k Hk). f_equal. apply same_bits; unfold L; intros x Hx; apply in_map_iff in Hx;
      destruct Hx as (y & <- & Hy); apply in_map; rewrite forallb_forall in S1, S2; apply field_in_spec; auto. }
  rewrite forallb_forall in SL, UB.
  assert (ONE : forall k, 0 <= k < 32 -> (List.length (filter (fun y => covers k (fst y)) L) <= 1)%nat /\
                (forall x, In x L -> covers k (fst x) = true -> Z.testbit base k = false)).
  { intros k Hk. specialize (UB k (in_word_bits k Hk)). cbv beta in UB. unfold L. rewrite filter_map_len. cbn [valued fst].
    rewrite BASE by assumption.
    destruct (filter (fun x => covers k (fst x)) fs) as [|a [|b r]] eqn:E; try discriminate UB.
    - split; [cbn; lia|]. intros x Hx C. apply in_map_iff in Hx. destruct Hx as (y & <- & Hy). cbn [valued fst] in C.
      assert (I : In y (filter (fun x => covers k (fst x)) fs)) by (apply filter_In; auto). rewrite E in I. destruct I.
    - split; [cbn; lia|]. intros _ _ _. destruct (Z.testbit (row_base o sz cc) k); [discriminate UB|reflexivity]. }
  assert (RNG : forall x, In x L -> 0 <= f_pos (fst x) /\ 0 <= f_len (fst x) /\ 0 <= f_skip (fst x) /\ f_pos (fst x) + f_len (fst x) <= 32).
  { intros x Hx. unfold L in Hx. apply in_map_iff in Hx. destruct Hx as (y & <- & Hy). apply SL in Hy. cbn [valued fst]. lia. }
  split.
  - assert (H : forall l, Forall2 same_field vals l -> (forall x, In x l -> In x L) -> Forall (holds w) vals).
    { clear F. induction vals as [|v vals IH]; intros l F Hl; [constructor|]. inversion F as [|? x ? l' [E A] F']; subst.
      constructor; [|apply (IH l' F'); intros; apply Hl; right; assumption].
      pose proof (Hl x (or_introl eq_refl)) as Hx. destruct (RNG x Hx) as (R1 & R2 & R3 & R4).
      unfold holds. rewrite A, E.
      apply Z.bits_inj'. intros j Hj. rewrite !bits_testbit by lia.
      destruct (Z.ltb_spec j (f_len (fst x))); [|rewrite ?andb_false_r; reflexivity]. rewrite ?andb_true_r. cbn [andb].
      assert (K : 0 <= f_pos (fst x) + j < 32) by lia.
      assert (C : covers (f_pos (fst x) + j) (fst x) = true) by (unfold covers; lia).
      destruct (ONE _ K) as [O1 O2].
      rewrite (BITS _ K), (O2 x Hx C), (unique_bit _ L x O1 Hx C). cbn [orb].
      unfold field_bit. unfold covers in C. rewrite C. cbn [andb]. f_equal. lia. }
    apply (H L F). auto.
  - intros k Hk NI. rewrite (BITS k Hk).
    enough (E : existsb (field_bit k) L = false) by (rewrite E; apply orb_false_r).
    destruct (existsb (field_bit k) L) eqn:E; [|reflexivity]. exfalso. apply existsb_exists in E. destruct E as (x & Hx & E).
    assert (V : exists v, In v vals /\ fst v = fst x).
    { clear - F Hx. induction F as [|v y vals l [E _] F IH]; [destruct Hx|]. destruct Hx as [->|Hx].
      - exists v. split; [left; reflexivity|exact E].
      - destruct (IH Hx) as (u & H1 & H2). exists u. split; [right; assumption|assumption]. }
    destruct V as (v & V1 & V2). apply (NI v V1). unfold inside. rewrite V2. unfold field_bit in E. lia.
Qed.

(** ** One instruction *)

Lemma find_none_in {A} (f : A -> bool) l : find f l = None -> forall x, In x l -> f x = false.
Proof.
  induction l as [|y l IH]; [contradiction|]. cbn [find]. destruct (f y) eqn:E; [discriminate|].
  intros H x [->|Hx]; [assumption|apply IH; assumption].
Qed.

Lemma ins_msb o ts i ps i' name pc pv sv :
  parse_operands o ts i ps = Some (i', []) -> ins_shape name ts = true -> flag_meaning o = Plain ->
  ins_fits ps = true -> validate_primary o pc i' = ROk pv -> validate_secondary i' pv = ROk sv -> sv < 32.
Proof.
  intros E SH FM FIT VP VS. unfold ins_shape in SH.
  destruct ts as [|[f1 x1| | | | | | | | | | | | | |] ts]; try discriminate SH.
  destruct ts as [|[| | | | | | | | | | | | |c2|] ts]; try discriminate SH.
  destruct ts as [|[f3 x3| | | | | | | | | | | | | |] ts]; try discriminate SH.
  destruct ts as [|[| | | | | | | | | | | | |c4|] ts]; try discriminate SH.
  destruct ts as [|[| | | | | | | |t5| | | | | |] ts]; try discriminate SH. destruct t5; try discriminate SH.
  destruct ts as [|[| | | | | | | | | | | | |c6|] ts]; try discriminate SH.
  destruct ts as [|[| | | | | | | | |t7| | | | |] ts]; try discriminate SH. destruct t7; try discriminate SH.
  destruct ts; [|discriminate SH].
  unfold ins_fits in FIT.
  destruct ps as [|p1 [|p2 [|p3 [|p4 [|p5 [|p6 [|p7 [|]]]]]]]]; try discriminate FIT.
  cbn [parse_operands parse_operand] in E.
  destruct (parse_register f1 p1); [|discriminate]. destruct p2 as [d2| | | | | |]; try discriminate.
  destruct (Ascii.eqb c2 d2); [|discriminate]. destruct (parse_register f3 p3); [|discriminate].
  destruct p4 as [d4| | | | | |]; try discriminate. destruct (Ascii.eqb c4 d4); [|discriminate].
  destruct (parse_immediate p5) as [e5|] eqn:P5; [|discriminate]. destruct p6 as [d6| | | | | |]; try discriminate.
  destruct (Ascii.eqb c6 d6); [|discriminate]. destruct (parse_immediate p7) as [e7|] eqn:P7; [|discriminate].
  injection E as <-.
  match type of VP with validate_primary _ _ ?x = _ => set (i' := x) in * end.
  assert (T1 : primary_type (i_ptype i') = true) by reflexivity.
  assert (T2 : i_ptype i' <> ImmediateHalfFloat) by discriminate.
  destruct (validate_primary_int o pc i' pv e5 T1 T2 eq_refl VP) as (z5 & h5 & -> & Q).
  destruct (validate_primary_range o pc i' pv T1 VP) as [R _]. change (2 ^ getImmediateBits (i_ptype i')) with 32 in R.
  rewrite FM in Q. cbn [meant] in Q. specialize (Q 0 5 ltac:(lia) ltac:(lia) ltac:(cbn; lia)).
  unfold bits in Q. rewrite !Z.div_1_r in Q. change (2 ^ 5) with 32 in Q.
  pose proof (validate_secondary_int i' pv sv e7 eq_refl VS) as V. change (i_stype i') with Ins in V. cbv iota in V.
  destruct V as (z7 & h7 & -> & ->).
  rewrite (parse_immediate_int _ _ _ _ P5 eq_refl), (parse_immediate_int _ _ _ _ P7 eq_refl) in FIT.
  rewrite s32_small by lia. lia.
Qed.

Lemma named_size i sz cc : i_vsize i = -1 ->
  i_vsize (named i sz cc) = match sz with Some v => v | None => -1 end.
Proof. destruct sz, cc; cbn; auto. Qed.

(** What the parser hands to the rest. *)
Definition sized_inst (o : mips_opcode) (i : minst) : minst :=
  if i_vsize i =? -1 then
    if mhas o MO_VFPU_SINGLE then set_vsize i 0
    else if mhas o MO_VFPU_PAIR then set_vsize i 1
    else if mhas o MO_VFPU_TRIPLE then set_vsize i 2
    else if mhas o MO_VFPU_QUAD then set_vsize i 3
    else i
  else i.
Lemma sized_inst_fields o i : let j := sized_inst o i in
  i_regs j = i_regs i /\ i_ptype j = i_ptype i /\ i_pexp j = i_pexp i /\ i_pval j = i_pval i /\
  i_stype j = i_stype i /\ i_sexp j = i_sexp i /\ i_sval j = i_sval i /\ i_vcond j = i_vcond i.
Proof.
  unfold sized_inst. destruct (i_vsize i =? -1); [|cbn; intuition].
  destruct (mhas o MO_VFPU_SINGLE); [cbn; intuition|]. destruct (mhas o MO_VFPU_PAIR); [cbn; intuition|].
  destruct (mhas o MO_VFPU_TRIPLE); [cbn; intuition|]. destruct (mhas o MO_VFPU_QUAD); cbn; intuition.
Qed.
Lemma sized_inst_size o sz cc : (match sz with Some v => 0 <= v | None => True end) ->
  i_vsize (sized_inst o (named fresh_inst sz cc)) = effective o sz.
Proof.
  intros H. unfold sized_inst, effective. rewrite named_size by reflexivity. destruct sz as [v|].
  - destruct (Z.eqb_spec v (-1)); [lia|]. apply named_size. reflexivity.
  - cbn [Z.eqb Pos.eqb]. destruct (mhas o MO_VFPU_SINGLE); [reflexivity|]. destruct (mhas o MO_VFPU_PAIR); [reflexivity|].
    destruct (mhas o MO_VFPU_TRIPLE); [reflexivity|]. destruct (mhas o MO_VFPU_QUAD); [reflexivity|].
    apply named_size. reflexivity.
Qed.
Lemma parseParameters_eq o i ps : parseParameters o i ps =
  match parse_operands o (template (m_encoding o)) (sized_inst o i) ps with
  | Some (i, []) => Some (set_regs i (setOmittedRegisters o (i_regs i)))
  | _ => None
  end.
Proof. reflexivity. Qed.

Lemma arch_eqb_eq a b : arch_eqb a b = true -> a = b.
Proof. destruct a, b; cbn; intros; try discriminate; reflexivity. Qed.

Lemma slot_bound_present o ts x y : forallb (fun x => match final o ts x with Some y => slot_in y (flat_map tok_slots ts) && (slot_bound o y =? slot_bound o x) | None => true end)
    (normal_slots ++ vfpu_slots) = true -> final o ts x = Some y ->
  In y (flat_map tok_slots ts) /\ slot_bound o y = slot_bound o x.
Proof.
  intros H E. rewrite forallb_forall in H. specialize (H x). rewrite E in H.
  assert (I : In x (normal_slots ++ vfpu_slots)) by (destruct x; cbn; tauto).
  specialize (H I). apply andb_true_iff in H. destruct H as [H1 H2]. split; [apply slot_in_spec, H1|lia].
Qed.

Lemma validate_set_regs o pc i r : validate_primary o pc (set_regs i r) = validate_primary o pc i.
Proof. reflexivity. Qed.
Lemma validate_sec_set_regs i r pv : validate_secondary (set_regs i r) pv = validate_secondary i pv.
Proof. reflexivity. Qed.

(** The word of a row: what it encodes, and the parts it is made of. *)
Definition made_of (o : mips_opcode) (name : string) (i : minst) (pv sv w : Z) : Prop :=
  let ts := template (m_encoding o) in
  exists sz cc i', In (name, sz, cc) (expansions (m_name o)) /\
    (forall x, i_regs i x = final_val i' (final o ts x)) /\
    (forall x y, final o ts x = Some y -> 0 <= i_regs i' y < slot_bound o x) /\
    0 <= w < 2 ^ 32 /\ adds (row_base o sz cc) w (map (valued i' pv sv) (sym_parts o ts)).
Lemma row_word a o name ps i pc pv sv w :
  In o MipsOpcodes -> parse_row a name ps o = Some i -> irregular a name ps = false ->
  validate_primary o pc i = ROk pv -> validate_secondary i pv = ROk sv ->
  (if mhas o MO_VFPU then encodeVfpu o (i_regs i) (i_ptype i) pv (i_vsize i) (i_vcond i)
   else encodeNormal o (i_regs i) (i_ptype i) pv (i_stype i) sv) = ROk w ->
  encodes a pc name ps w /\ made_of o name i pv sv w.
Proof.
  intros Ho PR IR VP VS EN. unfold parse_row in PR. destruct (row_available a o) eqn:AV; [|discriminate].
  destruct (decodeOpcode (m_name o) name fresh_inst) as [j|] eqn:D; [|discriminate].
  apply decode_expansions in D. destruct D as (sz & cc & IN & ->).
  rewrite parseParameters_eq in PR. set (ts := template (m_encoding o)) in *.
  destruct (parse_operands o ts (sized_inst o (named fresh_inst sz cc)) ps) as [[i' [|]]|] eqn:PO; try discriminate.
  injection PR as <-. rewrite validate_set_regs in VP. rewrite validate_sec_set_regs in VS.
  set (i0 := sized_inst o (named fresh_inst sz cc)) in *.
  assert (OK : expansion_ok a o (name, sz, cc) = true).
  { pose proof rows_ok as R. rewrite forallb_forall in R. specialize (R a ltac:(destruct a; cbn; tauto)).
    rewrite forallb_forall in R. specialize (R o Ho). unfold row_ok in R. rewrite AV in R. cbn [negb] in R.
    rewrite forallb_forall in R. exact (R _ IN). }
  unfold expansion_ok in OK. fold ts in OK.
  assert (SK : skipped a name ts = false).
  { unfold irregular in IR. rewrite !orb_false_iff in IR. destruct IR as [[[_ I2] I3] I4].
    unfold skipped. rewrite I3, I4, !orb_false_r.
    destruct (mem name ["wsbh"; "wsbw"; "seb"; "bitrev"; "seh"]%string); [|reflexivity]. cbn [andb] in *.
    destruct ts as [|[f x| | | | | | | | | | | | | |] [|]]; try reflexivity. exfalso.
    cbn [parse_operands parse_operand] in PO. destruct ps as [|p [|p' ps]]; try discriminate; destruct (parse_register f p); discriminate. }
  rewrite SK in OK. apply andb_true_iff in OK. destruct OK as [RS EX].
  pose proof RS as RS'. unfold row_sound in RS'. fold ts in RS'. cbv zeta in RS'. rewrite !andb_true_iff in RS'.
  destruct RS' as [[[[[[[[[[[[[ORD FITS] INS] SZ] CC] SEC] V6] MIX] ALN] FIN] _] _] _] _].
  apply existsb_exists in EX. destruct EX as (ins & INi & EX). destruct (String.eqb_spec (n_name ins) name) as [NAME|]; [|discriminate].
  cbn [negb] in EX. rewrite !andb_true_iff in EX. destruct EX as [[ON BASE] FORM].
  apply existsb_exists in ON. destruct ON as (a' & ON & AE). apply arch_eqb_eq in AE. subst a'.
  apply existsb_exists in FORM. destruct FORM as (form & FORMi & FORM).
  assert (SIZE : i_vsize i0 = effective o sz) by (apply sized_inst_size; destruct sz; [lia|trivial]).
  destruct (sized_inst_fields o (named fresh_inst sz cc)) as (G1 & G2 & G3 & G4 & G5 & G6 & G7 & G8).
  fold i0 in G1, G2, G3, G4, G5, G6, G7, G8.
  assert (F1 : i_regs i0 = no_regs) by (rewrite G1; destruct sz, cc; reflexivity).
  assert (F2 : i_ptype i0 = INone) by (rewrite G2; destruct sz, cc; reflexivity).
  assert (F3 : i_pexp i0 = None) by (rewrite G3; destruct sz, cc; reflexivity).
  assert (F6 : i_sexp i0 = None) by (rewrite G6; destruct sz, cc; reflexivity).
  assert (F5 : i_stype i0 = match cc with Some _ => Cop2BranchType | None => INone end) by (rewrite G5; destruct sz, cc; reflexivity).
  assert (F7 : i_sval i0 = match cc with Some v => v | None => 0 end) by (rewrite G7; destruct sz, cc; reflexivity).
  assert (F8 : i_vcond i0 = -1) by (rewrite G8; destruct sz, cc; reflexivity).
  rewrite <- SIZE in FORM.
  pose proof (parse_operands_frame _ _ _ _ _ _ PO) as FR.
  (* the operands *)
  destruct (parse_sound o name pc pv sv ts form 0 i0 ps i' PO FORM ORD) as (vals & READ & SAME); auto.
  { intros H1 H2. exfalso. rewrite H1, H2 in INS. discriminate INS. }
  (* the registers *)
  set (r := setOmittedRegisters o (i_regs i')) in *.
  assert (RV : forall x, r x = final_val i' (final o ts x)).
  { unfold r, final. apply omit_spec. intros x. unfold present, final_val. destruct (slot_in x (flat_map tok_slots ts)) eqn:SI; [reflexivity|].
    rewrite (fr_regs _ _ _ FR); [rewrite F1; reflexivity|]. intros H. apply slot_in_spec in H. congruence. }
  assert (RNG : forall x, In x (flat_map tok_slots ts) -> 0 <= i_regs i' x < slot_bound o x)
    by (apply (parse_operands_range _ _ _ _ _ _ PO ORD FITS)).
  assert (NN : forall x y, final o ts x = Some y -> 0 <= i_regs i' y).
  { intros x y H. destruct (slot_bound_present _ _ _ _ FIN H) as [H1 _]. apply RNG, H1. }
  assert (BND : in_bounds o r).
  { intros x. rewrite RV. destruct (final o ts x) as [y|] eqn:FX; [right|left; reflexivity]. cbn [final_val].
    destruct (slot_bound_present _ _ _ _ FIN FX) as [H1 <-]. apply RNG, H1. }
  (* the immediates *)
  assert (PT : i_ptype i' = primary_of ts) by (apply (parse_operands_primary _ _ _ _ _ _ PO ORD F2)).
  assert (ST : i_stype i' = match secondary_of ts with Some ty => ty | None => i_stype i0 end)
    by (apply (parse_operands_secondary _ _ _ _ _ _ PO ORD)).
  assert (VC : if existsb is_cond ts then 0 <= i_vcond i' < 16 else i_vcond i' = -1).
  { destruct (existsb is_cond ts) eqn:C; [apply (parse_operands_cond _ _ _ _ _ _ PO ORD C)|].
    rewrite (fr_cond _ _ _ FR C). exact F8. }
  assert (PR : primary_type (i_ptype i') = true -> 0 <= pv < 2 ^ getImmediateBits (i_ptype i'))
    by (intros H; apply (validate_primary_range _ _ _ _ H VP)).
  assert (PA : mhas o MO_IMMALIGNED = true -> primary_type (i_ptype i') = true -> pv mod 4 = 0).
  { intros H1 H2. destruct (validate_primary_range _ _ _ _ H2 VP) as [_ H]. apply H; [assumption|].
    rewrite H1 in ALN. apply meaning_eqb_eq, ALN. }
  assert (NOSEC : existsb is_secondary ts = false -> secondary_of ts = None) by (intros H; unfold secondary_of; rewrite find_none by assumption; reflexivity).
  assert (NOSEC' : secondary_of ts = None -> existsb is_secondary ts = false).
  { unfold secondary_of. destruct (find is_secondary ts) as [t|] eqn:FI.
    - apply find_some in FI. destruct FI as [_ FI]. destruct t; try discriminate FI. discriminate.
    - intros _. destruct (existsb is_secondary ts) eqn:X; [|reflexivity]. apply existsb_exists in X. destruct X as (t & X1 & X2).
      pose proof (find_none_in _ _ FI t X1). congruence. }
  assert (SV : sv < match i_stype i' with Cop2BranchType => 8 | _ => 32 end /\
               (secondary_of ts = None -> sv = match cc with Some v => v | None => 0 end)).
  { destruct (secondary_of ts) as [ty|] eqn:SO.
    - rewrite ST. split; [|discriminate]. destruct (imm_type_eq_dec ty Cop2BranchType) as [->|NC].
      + destruct (parse_operands_cc _ _ _ _ _ _ PO ORD SO) as [C1 C2]. rewrite F6 in C2.
        rewrite (validate_secondary_set _ _ _ C2 ST VS). lia.
      + destruct (parse_operands_sec_exp _ _ _ _ _ _ _ PO ORD SO NC) as [e SE].
        pose proof (validate_secondary_int _ _ _ _ SE VS) as V. rewrite ST in V.
        destruct ty; try discriminate SEC; try (destruct V as (z & h & V); lia); try congruence.
        assert (EI : existsb is_ins ts = true).
        { unfold secondary_of in SO. destruct (find is_secondary ts) as [t|] eqn:FI; [|discriminate].
          apply find_some in FI. destruct FI as [FI _]. apply existsb_exists. exists t. split; [assumption|].
          destruct t; try discriminate SO. injection SO as ->. reflexivity. }
        rewrite EI in INS. cbn [implb] in INS. rewrite !andb_true_iff in INS. destruct INS as [[_ SH] FM].
        apply meaning_eqb_eq in FM. eapply ins_msb; try eassumption.
        unfold irregular in IR. rewrite !orb_false_iff in IR. destruct IR as [[[IR _] _] _].
        assert (NM : String.eqb name "ins" = true).
        { unfold ins_shape in SH. repeat match type of SH with context [match ?x with _ => _ end] => destruct x; try discriminate SH end; exact SH. }
        rewrite NM in IR. cbn [andb] in IR. destruct (ins_fits ps); [reflexivity|discriminate IR].
    - destruct (fr_sec _ _ _ FR (NOSEC' eq_refl)) as (H1 & H2 & H3). rewrite ST, F5. rewrite F6 in H2. rewrite F7 in H3.
      unfold validate_secondary in VS. rewrite ST, F5, H2, H3 in VS. destruct cc as [v|]; injection VS as <-; lia. }
  destruct SV as [SV SVC].
  (* the word *)
  assert (SS : secondary_of ts = Some (i_stype i') \/ secondary_of ts = None).
  { destruct (secondary_of ts); [left; congruence|right; reflexivity]. }
  assert (VC' : if existsb is_cond ts then 0 <= i_vcond i' else i_vcond i' = -1) by (destruct (existsb is_cond ts); lia).
  pose proof (word_parts_sym o ts i' pv sv r (i_stype i') RV NN VC' SS) as WP. rewrite <- PT in WP.
  assert (W : 0 <= w < 2 ^ 32 /\ adds (row_base o sz cc) w (map (valued i' pv sv) (sym_parts o ts))).
  { cbn [i_regs i_ptype i_stype i_vsize i_vcond set_regs] in EN. fold r in EN. unfold row_base. destruct (mhas o MO_VFPU) eqn:V.
    - cbn [implb] in V6. apply negb_true_iff in V6.
      assert (VC2 : i_vcond i' = -1 \/ 0 <= i_vcond i' < 16) by (destruct (existsb is_cond ts); lia).
      destruct (vfpu_bits o r _ pv (i_stype i') sv _ _ w V V6 BND PR VC2 EN) as [W1 W2]. split; [exact W1|].
      rewrite (fr_size _ _ _ FR), SIZE in W2. rewrite WP in W2.
      replace (match secondary_of ts with Some _ => [] | None => map (fun f => (f, sv)) (secondary_slices o (i_stype i')) end)
        with (@nil (slice * Z)) in W2; [rewrite app_nil_r in W2; exact W2|].
      destruct (secondary_of ts); [reflexivity|]. unfold secondary_slices. rewrite V. reflexivity.
    - assert (MX : mhas o MO_VFPU_MIXED = true -> r vrt <> -1).
      { intros H. rewrite H in MIX. cbn [negb andb implb] in MIX. rewrite RV. destruct (final o ts vrt) as [y|] eqn:FX; [|discriminate].
        cbn [final_val]. pose proof (NN _ _ FX). lia. }
      destruct (normal_bits o r _ pv (i_stype i') sv (i_vcond i') w V BND MX PR PA SV EN) as [W1 W2]. split; [exact W1|].
      rewrite WP in W2. destruct (secondary_of ts) as [ty|] eqn:SO.
      + rewrite app_nil_r in W2. destruct cc as [v|]; [|exact W2]. rewrite andb_false_r in CC. discriminate CC.
      + specialize (SVC eq_refl). rewrite ST, F5 in W2. destruct cc as [v|].
        * subst sv. intros k Hk. rewrite (W2 k Hk), existsb_app, Z.lor_spec. unfold secondary_slices. rewrite V.
          cbn [map existsb]. rewrite orb_false_r. rewrite (bit_shifted 18 3 v k) by lia.
          rewrite <- !orb_assoc. f_equal. apply orb_comm.
        * unfold secondary_slices in W2. rewrite V in W2. cbn [map] in W2. rewrite app_nil_r in W2. exact W2. }
  destruct W as [W1 W2].
  assert (BB : forall k, 0 <= k < 32 -> Z.testbit (n_base ins) k = Z.testbit (row_base o sz cc) k).
  { intros k Hk. rewrite forallb_forall in BASE. apply Bool.eqb_prop, BASE, in_word_bits, Hk. }
  rewrite tok_fields_sources in SAME.
  assert (W3 : adds (n_base ins) w (map (valued i' pv sv) (sym_parts o ts))).
  { intros k Hk. rewrite BB by assumption. apply W2, Hk. }
  destruct (fields_hold o name sz cc i' pv sv w (n_base ins) vals RS BB W3 SAME) as [H1 H2].
  split; [exists ins, form, vals; exact (conj INi (conj NAME (conj ON (conj FORMi (conj READ (conj W1 (conj H1 H2)))))))|].
  exists sz, cc, i'. split; [exact IN|]. split; [exact RV|]. split; [|exact (conj W1 W2)].
  intros x y FX. destruct (slot_bound_present _ _ _ _ FIN FX) as [Y1 <-]. apply RNG, Y1.
Qed.
Lemma row_encodes a o name ps i pc pv sv w :
  In o MipsOpcodes -> parse_row a name ps o = Some i -> irregular a name ps = false ->
  validate_primary o pc i = ROk pv -> validate_secondary i pv = ROk sv ->
  (if mhas o MO_VFPU then encodeVfpu o (i_regs i) (i_ptype i) pv (i_vsize i) (i_vcond i)
   else encodeNormal o (i_regs i) (i_ptype i) pv (i_stype i) sv) = ROk w ->
  encodes a pc name ps w.
Proof. intros Ho PR IR VP VS EN. exact (proj1 (row_word a o name ps i pc pv sv w Ho PR IR VP VS EN)). Qed.

Lemma parse_rows_in a name ps t : forall o i, parse_rows a name ps t = Some (o, i) -> In o t /\ parse_row a name ps o = Some i.
Proof.
  induction t as [|x t IH]; intros o i E; [discriminate|]. cbn [parse_rows] in E.
  destruct (parse_row a name ps x) as [j|] eqn:P.
  - injection E as <- <-. split; [left; reflexivity|assumption].
  - apply IH in E. destruct E. split; [right; assumption|assumption].
Qed.

(** The words of an accepted line: the instruction, after a [nop] when the load delay is fixed. *)
Theorem assemble_encodes s ignore pc name ps out :
  mips_assemble s ignore pc name ps = ROk out -> irregular (ms_arch s) name ps = false ->
  exists w, (x_words out = [w] \/ (x_words out = [0; w] /\ x_warn out = true)) /\ encodes (ms_arch s) pc name ps w.
Proof.
  intros E IR. unfold mips_assemble in E. destruct (mips_parse (ms_arch s) name ps) as [[o i]|] eqn:P; [|discriminate].
  apply parse_rows_in in P. destruct P as [Ho PR].
  apply rbind_ok in E. destruct E as (v & EV & E). apply rbind_ok in E. destruct E as (ws & EW & E). injection E as <-.
  unfold mips_validate in EV. destruct (negb (Z.rem pc 4 =? 0)); [discriminate|].
  apply rbind_ok in EV. destruct EV as (pv & VP & EV). apply rbind_ok in EV. destruct EV as (sv & VS & EV).
  cbv zeta in EV. destruct (mhas o MO_NODELAYSLOT && ms_slot s && negb ignore); [discriminate|]. injection EV as <-.
  unfold mips_encode in EW. cbn [v_pval v_sval v_nop] in EW. apply rbind_ok in EW. destruct EW as (w & EW & EQ). injection EQ as <-.
  exists w. cbn [x_words x_warn v_warn]. split.
  - destruct (ms_fix s && _) eqn:N; [right|left; reflexivity]. split; [reflexivity|]. apply andb_true_iff in N. apply N.
  - eapply row_encodes; eassumption.
Qed.
