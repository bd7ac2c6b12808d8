(** SuperH instructions: the usual text is accepted. *)

Require Import ZArith Lia Bool List String Ascii.
Require Import ZifyBool.
Require Import Verif.Ints Verif.IntsLemmas Verif.BitFields Verif.Res Verif.ShTable Verif.ShModel Verif.ShSpec Verif.ShProofs Verif.ShWords.
Import ListNotations.
Local Open Scope string_scope.
Local Open Scope list_scope.
Local Open Scope Z_scope.


(** Pieces that differ in the number only. *)
Inductive like (z : Z) : shp -> shp -> Prop :=
| like_sym c : like z (SSym c) (SSym c)
| like_name s v : like z (SName s v) (SName s None)
| like_num p : number_piece p -> value_of p = Some z -> like z p hole.
Inductive likes (z : Z) : list shp -> list shp -> Prop :=
| likes_nil : likes z [] []
| likes_sym c p q : likes z p q -> likes z (SSym c :: p) (SSym c :: q)
| likes_name s v p q : likes z p q -> likes z (SName s v :: p) (SName s None :: q)
| likes_num a p q : number_piece a -> value_of a = Some z -> likes z p q ->
    (match q with [] => True | SSym c :: _ => c = ","%char \/ c = ")"%char | _ => False end) -> likes z (a :: p) (hole :: q).
Definition like_imm (z : Z) (a b : option (Z * option Z)) : Prop :=
  match b with
  | None => a = None
  | Some (n, None) => exists v, a = Some (n, v)
  | Some (n, Some _) => a = Some (n, Some z)
  end.
Definition like_inst (z : Z) (i j : sh_inst) : Prop := sh_grs i = sh_grs j /\ sh_grt i = sh_grt j /\ like_imm z (sh_imm i) (sh_imm j).
Definition like_result (z : Z) (a b : option sh_inst) : Prop :=
  match a, b with Some i, Some j => like_inst z i j | None, None => True | _, _ => False end.

Definition item_plain (it : sh_item) : bool :=
  match it with
  | IForced f => existsb (String.eqb f) shForced
  | IAtSym c => negb (Ascii.eqb c ",") && negb (Ascii.eqb c ")")
  | _ => true
  end.
Lemma items_plain : forallb (fun x => forallb item_plain (snd x)) prepared = true.
Proof. vm_compute. reflexivity. Qed.
Lemma forallb_map_in A B (f : B -> bool) (g : A -> B) l x : forallb f (map g l) = true -> In x l -> f (g x) = true.
Proof. intros H I. apply (forallb_in _ f (map g l) (g x) H). apply in_map. exact I. Qed.
Lemma plain_from (g : sh_opcode -> list sh_item) (p : list (sh_opcode * list sh_item)) l : p = map (fun o => (o, g o)) l ->
  forallb (fun x => forallb item_plain (snd x)) p = true -> forall o, In o l -> forallb item_plain (g o) = true.
Proof. intros -> H o I. exact (forallb_map_in _ _ _ _ _ _ H I). Qed.
Lemma row_plain : forall o, In o shOpcodes -> forallb item_plain (row_items o) = true.
Proof. exact (plain_from row_items prepared shOpcodes prepared_eq items_plain). Qed.

Lemma number_no_register s v : number_piece (SName s v) -> register_table shRegisters s = None.
Proof.
  intros [_ H]. destruct (register_table shRegisters s) as [n|] eqn:E; [|reflexivity]. exfalso.
  destruct (parseRegister_spec s v n E) as [R X]. destruct (H n R). destruct (first_at s); contradiction.
Qed.
Lemma number_no_forced s v f : number_piece (SName s v) -> existsb (String.eqb f) shForced = true -> s <> f.
Proof.
  intros [N H] F ->. apply existsb_exists in F. destruct F as (g & G & E). apply String.eqb_eq in E. subst g.
  destruct G as [<- | G]; [|exact (N G)]. destruct (H 0 ltac:(lia)) as [X _]. apply X. reflexivity.
Qed.

Lemma parse_likes z its : forall i j ps qs, forallb item_plain its = true -> likes z ps qs -> like_inst z i j ->
  like_result z (parse_items its i ps) (parse_items its j qs).
Proof.
  induction its as [|it its IH]; intros i j ps qs PL L I.
  - destruct L; cbn [parse_items like_result]; auto.
  - cbn [forallb] in PL. apply andb_true_iff in PL. destruct PL as [P1 PL]. destruct I as (I1 & I2 & I3). cbn [parse_items].
    assert (IL : like_inst z i j) by (split; auto).
    destruct L as [|c ps qs L|s v ps qs L|a ps qs NP NV L FO].
    + exact I.
    + destruct it as [f| | |b| | |c'|c']; cbn [parseRegister parseImmediate]; try exact I.
      destruct (matchSymbol c' (SSym c)); [exact (IH _ _ _ _ PL L IL)|exact I].
    + destruct it as [f| | |b| | |c'|c']; cbn [parseRegister parseImmediate].
      * destruct (String.eqb s f); [exact (IH _ _ _ _ PL L IL)|exact I].
      * destruct (register_table shRegisters s); [|exact I]. apply (IH _ _ _ _ PL L). repeat split; auto.
      * destruct (register_table shRegisters s); [|exact I]. apply (IH _ _ _ _ PL L). repeat split; auto.
      * destruct (register_table shRegisters s); [exact I|]. apply (IH _ _ _ _ PL L). split; [exact I1|]. split; [exact I2|]. exists v. reflexivity.
      * destruct (first_at s); [|exact I]. destruct (register_table shRegisters s); [|exact I]. apply (IH _ _ _ _ PL L). repeat split; auto.
      * destruct (first_at s); [|exact I]. destruct (register_table shRegisters s); [|exact I]. apply (IH _ _ _ _ PL L). repeat split; auto.
      * destruct L as [|c ps qs L|t u ps qs L|a ps qs NP NV L FO]; [exact I| | |].
        -- destruct (first_at s && matchSymbol c' (SSym c)); [exact (IH _ _ _ _ PL L IL)|exact I].
        -- unfold matchSymbol. rewrite andb_false_r, andb_false_r. exact I.
        -- unfold matchSymbol, hole. destruct a as [t u|r u|c]; [| |destruct NP]; rewrite andb_false_r, andb_false_r; exact I.
      * unfold matchSymbol. rewrite andb_false_r. exact I.
    + unfold hole. destruct a as [s v|r v|c]; [| |destruct NP].
      * pose proof (number_no_register _ _ NP) as NR. cbn [value_of] in NV. subst v.
        destruct it as [f| | |b| | |c'|c']; cbn [parseRegister parseImmediate]; try rewrite NR; try exact I.
        -- cbn [item_plain] in P1. destruct (String.eqb_spec s f) as [->|]; [|exact I]. destruct (number_no_forced _ _ _ NP P1 eq_refl).
        -- apply (IH _ _ _ _ PL L). repeat split; auto.
        -- destruct (first_at s); exact I.
        -- destruct (first_at s); exact I.
        -- cbn [item_plain] in P1. destruct L as [|c ps qs L|t u ps qs L|a ps qs NP' NV' L FO']; try destruct FO; try exact I.
           ++ subst c. destruct (matchSymbol c' (SSym ",")) eqn:M; [|rewrite andb_false_r; exact I]. apply matchSymbol_eq in M. injection M as <-. discriminate P1.
           ++ subst c. destruct (matchSymbol c' (SSym ")")) eqn:M; [|rewrite andb_false_r; exact I]. apply matchSymbol_eq in M. injection M as <-. discriminate P1.
        -- unfold matchSymbol. rewrite andb_false_r. exact I.
      * cbn in NP. subst r. cbn [value_of] in NV. subst v.
        destruct it as [f| | |b| | |c'|c']; cbn [parseRegister parseImmediate]; try exact I.
        -- apply (IH _ _ _ _ PL L). repeat split; auto.
        -- unfold matchSymbol. rewrite andb_false_r. exact I.
Qed.

Definition no_slash (ps : list shp) : Prop := match ps with SSym c :: _ => c <> "/"%char | _ => True end.
Lemma dec_plain e : forall name ps, no_slash ps -> decodeOpcode e name ps = match decodeOpcode e name [] with Some _ => Some ps | None => None end.
Proof.
  induction e as [|c e IH]; intros name ps H; cbn [decodeOpcode].
  - destruct name; reflexivity.
  - destruct (Ascii.eqb c "/").
    + destruct name; [|reflexivity]. destruct ps as [|[| |d] [|[n v| |] ps]]; try reflexivity.
      cbn in H. destruct (Ascii.eqb_spec d "/"); [contradiction|reflexivity].
    + destruct name as [|d n]; [reflexivity|]. destruct (Ascii.eqb c d); [apply IH, H|reflexivity].
Qed.
Definition like_rest (z : Z) (a b : option (list shp)) : Prop :=
  match a, b with Some p, Some q => likes z p q | None, None => True | _, _ => False end.
Lemma dec_likes z e name ps qs : likes z ps qs -> no_slash qs -> like_rest z (decodeOpcode e name ps) (decodeOpcode e name qs).
Proof.
  intros L N. assert (N' : no_slash ps).
  { destruct L as [| | |a ps qs NP NV L FO]; [exact I|exact N|exact I|]. destruct a; [exact I|exact I|destruct NP]. }
  rewrite (dec_plain e name ps N'), (dec_plain e name qs N). destruct (decodeOpcode e name []); [exact L|exact I].
Qed.
Lemma dec_likes_pre z e : forall name b v ps qs, likes z ps qs -> no_slash qs ->
  like_rest z (decodeOpcode e name (SSym "/" :: SName b v :: ps)) (decodeOpcode e name (SSym "/" :: SName b None :: qs)).
Proof.
  induction e as [|c e IH]; intros name b v ps qs L N; cbn [decodeOpcode].
  - destruct name; [|exact I]. constructor. constructor. exact L.
  - destruct (Ascii.eqb c "/").
    + destruct name; [|exact I]. change (Ascii.eqb "/" "/") with true. cbn iota. apply dec_likes; assumption.
    + destruct name as [|d n]; [exact I|]. destruct (Ascii.eqb c d); [apply IH; assumption|exact I].
Qed.

Definition like_row (z : Z) (a b : option (sh_opcode * sh_inst)) : Prop :=
  match a, b with Some (o, i), Some (o', j) => o = o' /\ like_inst z i j | None, None => True | _, _ => False end.
Lemma rows_likes z name ps qs t : (forall e, like_rest z (decodeOpcode e name ps) (decodeOpcode e name qs)) ->
  (forall o, In o t -> forallb item_plain (row_items o) = true) -> like_row z (parse_rows name ps t) (parse_rows name qs t).
Proof.
  intros D. induction t as [|o t IH]; intros PL; [exact I|]. cbn [parse_rows]. unfold parse_row. specialize (D (sh_name o)).
  destruct (decodeOpcode (sh_name o) name ps) as [r|], (decodeOpcode (sh_name o) name qs) as [q|]; try contradiction.
  - pose proof (parse_likes z (row_items o) sh_fresh sh_fresh r q (PL o (or_introl eq_refl)) D) as K.
    assert (R : like_inst z sh_fresh sh_fresh) by (repeat split). specialize (K R).
    destruct (parse_items (row_items o) sh_fresh r), (parse_items (row_items o) sh_fresh q); try contradiction; [split; auto|].
    apply IH. intros o' H. apply PL. right. exact H.
  - apply IH. intros o' H. apply PL. right. exact H.
Qed.

(** *** Numbers *)
Lemma small_s32 x : - 2 ^ 31 <= x < 2 ^ 31 -> s32 x = x.
Proof. intros H. apply s32_small. change (2 ^ 31) with 2147483648 in H. lia. Qed.
Lemma small_s64 x : - 2 ^ 31 <= x < 2 ^ 31 -> s64 x = x.
Proof. intros H. change (2 ^ 31) with 2147483648 in H. unfold s64. destruct (_ <? _) eqn:E; Z.div_mod_to_equations; lia. Qed.
Lemma field_step_complete o v b : (sh_has o SH_IMM16 = true -> sh_has o SH_IMM32 = false) -> b = 4 \/ b = 8 \/ b = 12 ->
  Z.abs (v / scale_of o) <= 2 ^ b - 1 ->
  (let v := if sh_has o SH_IMM16 then Z.shiftr v 1 else if sh_has o SH_IMM32 then Z.shiftr v 2 else v in
   let mask := 2 ^ b - 1 in
   if v =? -2147483648 then RUb else if Z.abs v >? mask then RErr else ROk (Z.land v mask)) = ROk ((v / scale_of o) mod 2 ^ b).
Proof.
  intros X B H. cbv zeta. rewrite (shifted o v X).
  destruct (v / scale_of o =? -2147483648) eqn:E1.
  { exfalso. destruct (pow_cases b B) as [(? & P & _)|[(? & P & _)|(? & P & _)]]; rewrite P in H; lia. }
  destruct (Z.abs (v / scale_of o) >? 2 ^ b - 1) eqn:E; [lia|]. rewrite land_mask by lia. reflexivity.
Qed.
Lemma scale_cases o : scale_of o = 1 \/ scale_of o = 2 \/ scale_of o = 4.
Proof. unfold scale_of. destruct (sh_has o SH_IMM16); [auto|]. destruct (sh_has o SH_IMM32); auto. Qed.
Lemma pc_base_range o pc : pc < pc_base (scale_of o) pc <= pc + 4.
Proof. unfold pc_base. destruct (scale_of o =? 4); [Z.div_mod_to_equations|]; lia. Qed.

Lemma rel_step o pc b v0 v : row_flags o b -> pc mod 2 = 0 -> sh_has o SH_IMM16 || sh_has o SH_IMM32 = true ->
  sh_has o SH_IMMREL || sh_has o SH_PCRELMANUAL = true -> 0 <= v < 2 ^ b ->
  (if sh_has o SH_IMMSIGNED then v0 = pc + 4 + 2 * signed b v /\ signed b v <> - 2 ^ (b - 1)
   else v0 = pc_base (scale_of o) pc + scale_of o * v) ->
  (if sh_has o SH_IMM16 && negb (u64 v0 mod 2 =? 0) then RErr
   else if sh_has o SH_IMM32 && negb (u64 v0 mod 4 =? 0) then RErr
   else do v <- (let range := sh_range o b in
                 let hi := if sh_has o SH_IMMSIGNED then Z.quot range 2 else range in
                 let lo := if sh_has o SH_IMMSIGNED then - Z.quot range 2 else 0 in
                 let num := s64 (v0 - pc_base (scale_of o) pc) in
                 if (num >? hi) || (num <? lo) then RErr else ROk (s32 num));
        let v := if sh_has o SH_IMM16 then Z.shiftr v 1 else if sh_has o SH_IMM32 then Z.shiftr v 2 else v in
        let mask := 2 ^ b - 1 in
        if v =? -2147483648 then RUb else if Z.abs v >? mask then RErr else ROk (Z.land v mask)) = ROk v.
Proof.
  intros [FR F16 FM FS FB] P FRR RM V H.
  assert (F32 : sh_has o SH_IMM32 = true -> sh_has o SH_IMM16 = false) by (destruct (sh_has o SH_IMM16); auto; intros X; rewrite (F16 eq_refl) in X; discriminate).
  destruct (rel_spec o pc P F32 FRR) as (RE & RA & SC).
  set (num := v0 - pc_base (scale_of o) pc).
  assert (NU : num = scale_of o * (if sh_has o SH_IMMSIGNED then signed b v else v) /\
               (if sh_has o SH_IMMSIGNED then - 2 ^ (b - 1) < num / scale_of o < 2 ^ (b - 1) else 0 <= num / scale_of o < 2 ^ b) /\
               (num / scale_of o) mod 2 ^ b = v /\ (sh_has o SH_IMMSIGNED = true -> scale_of o = 2 /\ sh_has o SH_IMM32 = false)).
  { unfold num. destruct (sh_has o SH_IMMSIGNED) eqn:SG.
    - destruct (FS eq_refl) as [_ I16]. assert (SO : scale_of o = 2) by (unfold scale_of; rewrite I16; reflexivity). destruct H as [H NE].
      unfold pc_base. rewrite SO in *. change (2 =? 4) with false in *. cbn iota. split; [lia|].
      replace ((v0 - (pc + 4)) / 2) with (signed b v) by (rewrite H; Z.div_mod_to_equations; lia).
      split; [|split; [|intros _; split; [reflexivity|exact (F16 I16)]]].
      + unfold signed in *. destruct (pow_cases b FB) as [(? & P1 & P2)|[(? & P1 & P2)|(? & P1 & P2)]]; rewrite P1, P2 in *; destruct (_ <? _) eqn:L; lia.
      + unfold signed. destruct (pow_cases b FB) as [(? & P1 & P2)|[(? & P1 & P2)|(? & P1 & P2)]]; rewrite P1, P2 in *; destruct (_ <? _) eqn:L; Z.div_mod_to_equations; lia.
    - rewrite H. split; [lia|]. replace ((pc_base (scale_of o) pc + scale_of o * v - pc_base (scale_of o) pc) / scale_of o) with v
        by (replace (pc_base (scale_of o) pc + scale_of o * v - pc_base (scale_of o) pc) with (v * scale_of o) by lia; rewrite Z.div_mul by lia; reflexivity).
      split; [exact V|]. split; [apply Z.mod_small, V|discriminate]. }
  destruct NU as (N1 & N2 & N3 & N4).
  assert (AL : aligned o v0).
  { unfold aligned. replace v0 with (pc_base (scale_of o) pc + num) by (unfold num; lia). rewrite N1. destruct SC as [SC|SC]; rewrite SC in *; Z.div_mod_to_equations; lia. }
  apply (aligned_checks o v0 F16) in AL. apply orb_false_iff in AL. destruct AL as [A1 A2]. rewrite A1, A2.
  assert (NR : - 20000 < num < 20000).
  { destruct (pow_cases b FB) as [(? & P1 & P2)|[(? & P1 & P2)|(? & P1 & P2)]]; rewrite P1, P2 in *; destruct (sh_has o SH_IMMSIGNED);
      destruct SC as [SC|SC]; rewrite SC in *; Z.div_mod_to_equations; lia. }
  rewrite (small_s64 num) by (change (2 ^ 31) with 2147483648; lia). cbv zeta. rewrite (small_s32 num) by (change (2 ^ 31) with 2147483648; lia).
  assert (RG : (num >? (if sh_has o SH_IMMSIGNED then Z.quot (sh_range o b) 2 else sh_range o b)) || (num <? (if sh_has o SH_IMMSIGNED then - Z.quot (sh_range o b) 2 else 0)) = false).
  { unfold sh_range. destruct (sh_has o SH_IMMSIGNED) eqn:SG.
    - destruct (N4 eq_refl) as [SO I32]. rewrite SO, I32 in *. apply orb_false_iff.
      destruct (pow_cases b FB) as [(? & P1 & P2)|[(? & P1 & P2)|(? & P1 & P2)]]; rewrite P1, P2 in *; split; Z.quot_rem_to_equations; Z.div_mod_to_equations; lia.
    - assert (SO : (if sh_has o SH_IMM32 then 4 else 2) = scale_of o).
      { unfold scale_of. destruct (sh_has o SH_IMM32); [rewrite (F32 eq_refl); reflexivity|]. destruct (sh_has o SH_IMM16); [reflexivity|discriminate FRR]. }
      rewrite SO. apply orb_false_iff. destruct SC as [SC|SC]; rewrite SC in *; split; Z.div_mod_to_equations; lia. }
  rewrite RG. cbn [rbind]. rewrite <- N3. apply (field_step_complete o num b F16 FB).
  - clear - N2 FB. revert N2. generalize (num / scale_of o). intros q N2.
    destruct (pow_cases b FB) as [(? & P1 & P2)|[(? & P1 & P2)|(? & P1 & P2)]]; rewrite P1, P2 in *; destruct (sh_has o SH_IMMSIGNED); lia.
Qed.

Lemma sh_immediate_complete o pc b z v : row_flags o b -> pc mod 2 = 0 -> 0 <= pc -> 0 <= v < 2 ^ b ->
  representable pc (kind o b v) z -> (forall d, kind o b v = Branch d -> d <> - 2 ^ (b - 1)) -> sh_immediate o pc b z = ROk v.
Proof.
  intros RF P PP V R NB. pose proof RF as [FR F16 FM FS FB]. unfold sh_immediate.
  assert (F32 : sh_has o SH_IMM32 = true -> sh_has o SH_IMM16 = false) by (destruct (sh_has o SH_IMM16); auto; intros H; rewrite (F16 eq_refl) in H; discriminate).
  assert (PB : 2 ^ b <= 4096) by (destruct (pow_cases b FB) as [(? & P1 & P2)|[(? & P1 & P2)|(? & P1 & P2)]]; lia).
  change (2 ^ 31) with 2147483648 in *.
  destruct (sh_has o SH_IMMREL || sh_has o SH_PCRELMANUAL) eqn:RM.
  - specialize (FR eq_refl). destruct (rel_spec o pc P F32 FR) as (RE & RA & SC). rewrite RE. cbv zeta. rewrite FR. cbn [andb].
    pose proof (pc_base_range o pc) as BR. unfold kind in R, NB.
    destruct (sh_has o SH_PCRELMANUAL) eqn:MA.
    + destruct (sh_has o SH_IMMREL) eqn:IR; [discriminate (FM eq_refl)|]. cbn [representable] in R. change (2 ^ 31) with 2147483648 in R. destruct R as [R1 R2].
      assert (SV : 0 <= scale_of o * v <= 4 * 4096) by (destruct SC as [SC|SC]; rewrite SC; lia).
      rewrite (small_s32 pc) by (change (2 ^ 31) with 2147483648; lia). rewrite (small_s32 z) by (change (2 ^ 31) with 2147483648; lia).
      rewrite (small_s32 (z + pc)) by (change (2 ^ 31) with 2147483648; lia). rewrite Z.eqb_refl. cbn [rbind].
      apply (rel_step o pc b (z + pc) v RF P FR); [rewrite MA; apply orb_true_r|exact V|].
      destruct (sh_has o SH_IMMSIGNED) eqn:SG; [destruct (FS eq_refl); congruence|]. lia.
    + rewrite orb_false_r in RM. rewrite RM in *. cbn [orb rbind].
      assert (ZR : s32 z = z).
      { apply small_s32. change (2 ^ 31) with 2147483648. destruct (sh_has o SH_IMMSIGNED); cbn [representable] in R; change (2 ^ 31) with 2147483648 in R; [lia|].
        destruct R as [R1 R2]. destruct SC as [SC|SC]; rewrite SC in *; lia. }
      rewrite ZR. apply (rel_step o pc b z v RF P FR); [rewrite RM; reflexivity|exact V|].
      destruct (sh_has o SH_IMMSIGNED); cbn [representable] in R; [|exact (proj1 R)]. split; [exact (proj1 R)|]. exact (NB _ eq_refl).
  - apply orb_false_iff in RM. destruct RM as [RM1 RM2]. unfold kind in R. rewrite RM1, RM2 in R. cbn [representable] in R. destruct R as (R1 & R2 & R3).
    rewrite RM2, andb_false_r. cbv zeta. cbn [rbind].
    assert (ZR : s32 z = z).
    { apply small_s32. change (2 ^ 31) with 2147483648. destruct (pow_cases b FB) as [(? & P1 & P2)|[(? & P1 & P2)|(? & P1 & P2)]]; rewrite P1, P2 in *;
        destruct (scale_cases o) as [SC|[SC|SC]]; rewrite SC in *; Z.div_mod_to_equations; lia. }
    rewrite ZR. assert (AL : aligned o z) by exact R1. apply (aligned_checks o z F16) in AL. apply orb_false_iff in AL. destruct AL as [A1 A2]. rewrite A1, A2.
    cbn [rbind]. rewrite R3. apply (field_step_complete o z b F16 FB).
    destruct (pow_cases b FB) as [(? & P1 & P2)|[(? & P1 & P2)|(? & P1 & P2)]]; rewrite P1, P2 in *; lia.
Qed.

(** *** Lines *)
Lemma no_number_likes pc z : forall syms rest, Forall2 (usual pc) syms rest -> existsb is_number syms = false ->
  likes z rest (map (as_piece hole) syms).
Proof.
  induction 1 as [|x p syms rest U F IH]; intros N; [constructor|]. cbn [existsb] in N. apply orb_false_iff in N. destruct N as [N1 N2]. cbn [map].
  destruct x; cbn [usual is_number] in *; try discriminate; destruct p; try contradiction; subst; constructor; exact (IH N2).
Qed.
Lemma one_number_likes pc : forall syms rest, Forall2 (usual pc) syms rest -> one_number syms = true ->
  exists z, likes z rest (map (as_piece hole) syms) /\ forall n, numeral_of syms = Some n -> representable pc n z.
Proof.
  unfold numeral_of. induction 1 as [|x p syms rest U F IH]; intros N.
  - exists 0. split; [constructor|discriminate].
  - cbn [one_number] in N. destruct x as [n|n| |s|c|n].
    6: { apply andb_true_iff in N. destruct N as [N1 N2]. apply negb_true_iff in N2. cbn [usual] in U.
         destruct U as (NP & z & NV & R). exists z. split.
         - cbn [map as_piece]. constructor; [exact NP|exact NV|exact (no_number_likes pc z _ _ F N2)|].
           destruct syms as [|y syms]; [exact I|]. cbn [closes] in N1. destruct y; try discriminate. cbn [map as_piece]. 
           apply orb_true_iff in N1. destruct N1 as [N1|N1]; apply Ascii.eqb_eq in N1; auto.
         - cbn [find]. intros m E. injection E as <-. exact R. }
    all: destruct (IH N) as (z & L & Q); exists z; (split; [|exact Q]); cbn [map as_piece usual] in *; destruct p; try contradiction; subst; constructor; exact L.
Qed.

Lemma plain_no_slash syms : starts_plain syms = true -> no_slash (map (as_piece hole) syms).
Proof.
  destruct syms as [|[]]; cbn; auto. intros H. apply negb_true_iff in H. apply Ascii.eqb_neq in H. exact H.
Qed.

Lemma hole_accepts pc w x syms name ps rest : pc mod 2 = 0 -> 0 <= pc -> furthest_back x = false ->
  starts_plain syms = true -> one_number syms = true -> hole_ok w x syms = true -> Forall2 (usual pc) syms rest ->
  match cut (fst x) with
  | (a, None) => name = a /\ ps = rest
  | (a, Some b) => name = a /\ exists v, ps = SSym "/" :: SName b v :: rest
  end -> sh_assemble pc name ps = ROk w.
Proof.
  intros P PP FB SP ON HO US TX. destruct (one_number_likes pc _ _ US ON) as (z & L & RP).
  unfold hole_ok, before in HO. rewrite prepared_eq in HO.
  assert (K : exists qs, before x = (name, qs) /\ forall e, like_rest z (decodeOpcode e name ps) (decodeOpcode e name (qs ++ map (as_piece hole) syms))).
  { unfold before. destruct (cut (fst x)) as [a [b|]].
    - destruct TX as (-> & v & ->). eexists. split; [reflexivity|]. intros e. cbn [app]. apply dec_likes_pre; [exact L|apply plain_no_slash, SP].
    - destruct TX as [-> ->]. eexists. split; [reflexivity|]. intros e. cbn [app]. apply dec_likes; [exact L|apply plain_no_slash, SP]. }
  destruct K as (qs & BE & K). unfold before in BE. rewrite BE in HO. rewrite parse_prepared_eq in HO.
  pose proof (rows_likes z name ps _ shOpcodes K row_plain) as R. unfold sh_assemble.
  destruct (parse_rows name (qs ++ map (as_piece hole) syms) shOpcodes) as [[o j]|] eqn:PR; [|discriminate].
  destruct (parse_rows name ps shOpcodes) as [[o' i]|]; [|contradiction]. cbn [like_row] in R. destruct R as [-> (I1 & I2 & I3)].
  apply parse_rows_in in PR. destruct PR as [IN _]. pose proof (row_facts o (row_ok o IN)) as (_ & _ & _ & FL & _).
  unfold sh_validate. replace (Z.rem pc 2 =? 0) with true by (symmetry; apply Z.eqb_eq; Z.quot_rem_to_equations; Z.div_mod_to_equations; lia). cbn [negb].
  rewrite I1, I2. destruct (sh_imm j) as [[b [u|]]|]; cbn [like_imm] in I3; rewrite ?I3.
  - destruct (numeral_of syms) as [n|] eqn:NU; [|discriminate]. rewrite !andb_true_iff in HO.
    destruct HO as [[[[[H1 H2] H3] H4] H5] H6]. apply numeral_eqb_eq in H4.
    destruct (imm_bits (row_items o)) as [b'|] eqn:IB; [|discriminate]. apply Z.eqb_eq in H6. subst b'.
    rewrite (sh_immediate_complete o pc b z (field_of b n) (flags_rows _ _ _ FL IB) P PP).
    + cbn [rbind]. f_equal. lia.
    + lia.
    + rewrite H4. apply RP. reflexivity.
    + intros d E. rewrite H4 in E. subst n. rewrite FB in H5. cbn [orb] in H5. apply negb_true_iff in H5. lia.
  - destruct (numeral_of syms); discriminate.
  - destruct (numeral_of syms); [discriminate|]. cbn [rbind]. f_equal. lia.
Qed.

Theorem usual_accepted pc w x name ps : 0 <= w < 65536 -> sh_decode w = Some x -> pc mod 2 = 0 -> 0 <= pc -> furthest_back x = false ->
  usual_text pc x name ps -> sh_assemble pc name ps = ROk w.
Proof.
  intros WR DE P PP FB (rest & syms & IN & US & TX). pose proof (word_is_ok w WR) as K. unfold word_ok in K. rewrite DE in K.
  pose proof (forallb_in _ _ _ _ K IN) as K1. cbv beta in K1. rewrite !andb_true_iff in K1. destruct K1 as [[K1 K2] K3].
  exact (hole_accepts pc w x syms name ps rest P PP FB K1 K2 K3 US TX).
Qed.
