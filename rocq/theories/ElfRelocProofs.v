(** Proofs on the relocated words of imported sections. *)

Require Import ZArith Lia Bool String List.
Require Import ZifyBool.
Require Import Verif.Ints Verif.IntsLemmas Verif.Res Verif.ElfModel Verif.ElfSpec Verif.ElfProofs.
Import ListNotations.
Local Open Scope Z_scope.
Ltac Zify.zify_post_hook ::= Z.div_mod_to_equations.

(** ** The loop over the relocations *)

Lemma ok2 {A B} (a c : A) (b d : B) : ROk (a, b) = ROk (c, d) -> a = c /\ b = d.
Proof. intros H. inversion H. auto. Qed.
Lemma ok3 {A B C} (a d : A) (b e : B) (c f : C) : ROk (a, b, c) = ROk (d, e, f) -> a = d /\ b = e /\ c = f.
Proof. intros H. inversion H. auto. Qed.

Definition site (base : Z) (r : erel) : Z := s32 (r_offset r) + base.
Definition from_sites (base : Z) (hs : list hi16) (rs : list erel) (o : Z) : Prop :=
  (exists h, In h hs /\ h_offset h = o) \/ (exists r, In r rs /\ site base r = o).

Lemma process_sites hs lo b : forall acts ok, processHi16Entries hs lo b = ROk (acts, ok) ->
  forall a, In a acts -> exists h, In h hs /\ h_offset h = fst a.
Proof.
  induction hs as [| h hs IH]; intros acts ok; cbn [processHi16Entries].
  - intros H. apply ok2 in H. destruct H as (<- & <-). intros a [].
  - cbv zeta. destruct (negb (h_base h =? b)).
    + intros H. apply do_ok in H. destruct H as ([ac o] & R & H). apply ok2 in H. destruct H as (<- & <-). cbn [fst] in *.
      intros a I. destruct (IH _ _ R a I) as (h' & A & B). exists h'. split; [right |]; assumption.
    + destruct (negb _) eqn:E; [discriminate |].
      intros H. apply do_ok in H. destruct H as ([ac o] & R & H). apply ok2 in H. destruct H as (<- & <-). cbn [fst snd] in *.
      intros a [<- | I]; [exists h; split; [left |]; reflexivity |].
      destruct (IH _ _ R a I) as (h' & A & B). exists h'. split; [right |]; assumption.
Qed.

Lemma opcode_sites m type d hs acts hs' ok : relocateOpcode m type d hs = ROk (acts, hs', ok) ->
  (forall a, In a acts -> fst a = d_offset d \/ exists h, In h hs /\ h_offset h = fst a) /\
  (forall h, In h hs' -> In h hs \/ h_offset h = d_offset d).
Proof.
  destruct m; cbn [relocateOpcode].
  - unfold mips_relocate. cbv zeta. destruct (type =? R_MIPS_26).
    { intros H. apply ok3 in H. destruct H as (<- & <- & <-). split; [intros a [<- | []]; left; reflexivity | auto]. }
    destruct (type =? R_MIPS_32).
    { intros H. apply ok3 in H. destruct H as (<- & <- & <-). split; [intros a [<- | []]; left; reflexivity | auto]. }
    destruct (type =? R_MIPS_HI16).
    { intros H. apply ok3 in H. destruct H as (<- & <- & <-). split; [intros a [<- | []]; left; reflexivity |].
      intros h I. apply in_app_iff in I. destruct I as [I | [<- | []]]; auto. }
    destruct (type =? R_MIPS_LO16).
    { intros H. apply do_ok in H. destruct H as ([ac o] & P & H). apply ok3 in H. destruct H as (<- & <- & <-). split; [| intros h []].
      intros a I. apply in_app_iff in I. destruct I as [I | [<- | []]]; [right; apply (process_sites _ _ _ _ _ P a I) | left; reflexivity]. }
    intros H. apply ok3 in H. destruct H as (<- & <- & <-). split; [intros a [] | auto].
  - intros H. apply do_ok in H. destruct H as ([ac o] & P & H). apply ok3 in H. destruct H as (<- & <- & <-). cbn [fst snd]. split; [| auto].
    assert (G : forall a, In a ac -> fst a = d_offset d).
    { revert P. unfold arm_relocate. cbv zeta.
      destruct ((type =? R_ARM_ABS32) || (type =? R_ARM_TARGET1)).
      { intros H. apply ok2 in H. destruct H as (<- & <-). intros a [<- | []]. reflexivity. }
      destruct (type =? R_ARM_THM_CALL).
      { intros H. apply do_ok in H. destruct H as (v & _ & H). destruct (thumb_second _ _ _ _); [| apply ok2 in H; destruct H as (<- & <-); intros a []].
        destruct (v =? -2147483648); [discriminate |]. destruct (Z.abs v >=? 0x400000); apply ok2 in H; destruct H as (<- & <-); [intros a [] |].
        intros a [<- | []]. reflexivity. }
      destruct ((type =? R_ARM_CALL) || (type =? R_ARM_JUMP24)).
      { intros H. apply do_ok in H. destruct H as (v & _ & H). destruct (arm_branch _ _ _ _ _ _); [| apply ok2 in H; destruct H as (<- & <-); intros a []].
        destruct (v =? -2147483648); [discriminate |]. destruct (Z.abs v >=? 0x2000000); apply ok2 in H; destruct H as (<- & <-); [intros a [] |].
        intros a [<- | []]. reflexivity. }
      intros H. apply ok2 in H. destruct H as (<- & <-). intros a []. }
    intros a I. left. auto.
  - cbv zeta. intros H. apply ok3 in H. destruct H as (<- & <- & <-). split; [| auto]. unfold sh_relocate.
    destruct (type =? R_SH_DIR32); [intros a [<- | []]; left; reflexivity |].
    destruct (type =? R_SH_REL32); [intros a [<- | []]; left; reflexivity |]. intros a [].
Qed.

Section Loop.
Variables (m : machine) (labels : string -> option elabel) (big : bool) (symtab : list esym) (offsets : list (Z * Z)).
Variables (data : list Z) (base : Z).
Let relocs := relocations m labels big symtab offsets data base.
Let rdat := relocation_data m labels big symtab offsets data base.

Lemma data_offset r d : rdat r = ROk (Some d) -> d_offset d = site base r.
Proof.
  unfold rdat, relocation_data. destruct (nth_error symtab (Z.to_nat (r_sym r))) as [y |]; [| discriminate].
  intros H. apply do_ok in H. destruct H as (op & _ & H). destruct (setSymbolAddress m (sy_value y) (sy_type y)) as [v i].
  cbv zeta in H. destruct (sy_shndx y =? 0).
  - destruct (String.eqb (sy_name y) ""); [discriminate |]. destruct (labels (sy_name y)); [| discriminate].
    apply ROk_inj in H. injection H as <-. reflexivity.
  - apply ROk_inj in H. injection H as <-. reflexivity.
Qed.

Lemma relocs_cons hs r rs acts hs' : relocs hs (r :: rs) = ROk (acts, hs', true) ->
  (isDummyRelocationType m (r_type r) = true /\ relocs hs rs = ROk (acts, hs', true)) \/
  (isDummyRelocationType m (r_type r) = false /\ 0 < r_sym r /\ exists d a1 h1 a2,
     rdat r = ROk (Some d) /\ relocateOpcode m (r_type r) d hs = ROk (a1, h1, true) /\
     relocs h1 rs = ROk (a2, hs', true) /\ acts = a1 ++ a2).
Proof.
  unfold relocs. cbn [relocations]. destruct (isDummyRelocationType m (r_type r)); [auto |].
  destruct (r_sym r <=? 0) eqn:E.
  { intros H. apply do_ok in H. destruct H as (x & _ & H). apply ok2 in H; destruct H as (_ & H); discriminate. }
  intros H. right. split; [reflexivity |]. split; [lia |].
  apply do_ok in H. destruct H as ([d |] & D & H).
  - apply do_ok in H. destruct H as ([[a1 h1] ok1] & O & H). apply do_ok in H. destruct H as ([[a2 h2] ok2] & R & H).
    apply ok3 in H. destruct H as (<- & <- & E'). apply andb_prop in E'. destruct E' as (-> & ->).
    exists d, a1, h1, a2. auto.
  - apply do_ok in H. destruct H as (x & _ & H). apply ok2 in H; destruct H as (_ & H); discriminate.
Qed.

Lemma relocs_sites rs : forall hs acts hs', relocs hs rs = ROk (acts, hs', true) ->
  (forall a, In a acts -> from_sites base hs rs (fst a)) /\ (forall h, In h hs' -> from_sites base hs rs (h_offset h)).
Proof.
  induction rs as [| r rs IH]; intros hs acts hs' H.
  - unfold relocs in H. cbn [relocations] in H. apply ok3 in H. destruct H as (<- & <- & _). split; [intros a [] |].
    intros h I. left. eauto.
  - apply relocs_cons in H. destruct H as [(_ & H) | (_ & _ & d & a1 & h1 & a2 & D & O & R & ->)].
    + destruct (IH _ _ _ H) as (A & B). split.
      * intros a I. destruct (A a I) as [X | (r' & X & Y)]; [left; exact X | right; exists r'; split; [right |]; assumption].
      * intros h I. destruct (B h I) as [X | (r' & X & Y)]; [left; exact X | right; exists r'; split; [right |]; assumption].
    + destruct (IH _ _ _ R) as (A & B). destruct (opcode_sites _ _ _ _ _ _ _ O) as (P & Q). rewrite (data_offset _ _ D) in P, Q.
      assert (G : forall o, from_sites base h1 rs o -> from_sites base hs (r :: rs) o).
      { intros o [(h & X & Y) | (r' & X & Y)].
        - destruct (Q h X) as [Z | Z]; [left; eauto |]. right. exists r. split; [left; reflexivity | congruence].
        - right. exists r'. split; [right |]; assumption. }
      split.
      * intros a I. apply in_app_iff in I. destruct I as [I | I]; [| auto].
        destruct (P a I) as [X | X]; [right; exists r; split; [left; reflexivity | congruence] | left; exact X].
      * auto.
Qed.

Lemma relocs_app pre : forall hs rs acts hs', relocs hs (pre ++ rs) = ROk (acts, hs', true) ->
  exists a1 h1 a2, relocs hs pre = ROk (a1, h1, true) /\ relocs h1 rs = ROk (a2, hs', true) /\ acts = a1 ++ a2.
Proof.
  induction pre as [| r pre IH]; intros hs rs acts hs' H.
  - exists [], hs, acts. auto.
  - cbn [app] in H. apply relocs_cons in H. destruct H as [(E & H) | (E & L & d & a1 & h1 & a2 & D & O & R & ->)].
    + destruct (IH _ _ _ _ H) as (a1 & h1 & a2 & A & B & C). exists a1, h1, a2. split; [| auto].
      unfold relocs. cbn [relocations]. rewrite E. exact A.
    + destruct (IH _ _ _ _ R) as (b1 & g1 & b2 & A & B & ->). exists (a1 ++ b1), g1, b2.
      split; [| split; [exact B | apply app_assoc]].
      unfold relocs. cbn [relocations]. rewrite E. replace (r_sym r <=? 0) with false by lia.
      unfold rdat in D. rewrite D. cbn [rbind]. rewrite O. cbn [rbind]. unfold relocs in A. rewrite A. reflexivity.
Qed.

(** Taking a relocation out of the middle. *)
Lemma relocs_split pre r post hs acts hs' : relocs hs (pre ++ r :: post) = ROk (acts, hs', true) ->
  isDummyRelocationType m (r_type r) = false ->
  exists a1 h1 d a2 h2 a3, relocs hs pre = ROk (a1, h1, true) /\ 0 < r_sym r /\ rdat r = ROk (Some d) /\
    relocateOpcode m (r_type r) d h1 = ROk (a2, h2, true) /\ relocs h2 post = ROk (a3, hs', true) /\ acts = a1 ++ a2 ++ a3.
Proof.
  intros H N. destruct (relocs_app _ _ _ _ _ H) as (a1 & h1 & a2 & A & B & ->).
  apply relocs_cons in B. destruct B as [(E & _) | (_ & L & d & b1 & g1 & b2 & D & O & R & ->)]; [congruence |].
  exists a1, h1, d, b1, g1, b2. auto 10.
Qed.
End Loop.

(** MIPS: without a LO16 the open entries stay. *)
Lemma open_stay labels big symtab offsets data base rs : forall hs acts hs',
  relocations Mips labels big symtab offsets data base hs rs = ROk (acts, hs', true) ->
  Forall (fun r => r_type r <> R_MIPS_LO16) rs ->
  exists hx, hs' = hs ++ hx /\ (forall h, In h hx -> exists r, In r rs /\ site base r = h_offset h).
Proof.
  induction rs as [| r rs IH]; intros hs acts hs' H F.
  - cbn [relocations] in H. apply ok3 in H. destruct H as (<- & <- & _). exists []. rewrite app_nil_r. split; [reflexivity | intros h []].
  - apply relocs_cons in H. inversion F as [| ? ? F1 F2]; subst.
    destruct H as [(E & _) | (_ & _ & d & a1 & h1 & a2 & D & O & R & ->)]; [discriminate |].
    destruct (IH _ _ _ R F2) as (hx & -> & X).
    assert (G : exists hy, h1 = hs ++ hy /\ (forall h, In h hy -> h_offset h = d_offset d)).
    { revert O. cbn [relocateOpcode]. unfold mips_relocate. cbv zeta.
      destruct (r_type r =? R_MIPS_26); [intros O; apply ok3 in O; destruct O as (<- & <- & _); exists []; rewrite app_nil_r; split; [reflexivity | intros h []] |].
      destruct (r_type r =? R_MIPS_32); [intros O; apply ok3 in O; destruct O as (<- & <- & _); exists []; rewrite app_nil_r; split; [reflexivity | intros h []] |].
      destruct (r_type r =? R_MIPS_HI16).
      { intros O; apply ok3 in O; destruct O as (<- & <- & _). eexists. split; [reflexivity |]. intros h [<- | []]. reflexivity. }
      replace (r_type r =? R_MIPS_LO16) with false by lia. intros O. apply ok2 in O. destruct O as (_ & O). discriminate. }
    destruct G as (hy & -> & Y). exists (hy ++ hx). rewrite app_assoc. split; [reflexivity |].
    intros h I. apply in_app_iff in I. destruct I as [I | I].
    + exists r. split; [left; reflexivity |]. rewrite (Y h I). symmetry. eapply data_offset; exact D.
    + destruct (X h I) as (r' & A & B). exists r'. split; [right |]; assumption.
Qed.

(** The relocated upper half. *)
Definition hi_word (h : hi16) (lo : Z) : Z :=
  let full := s32 (Z.shiftl (Z.land (h_opcode h) 0xFFFF) 16) + s16 (Z.land lo 0xFFFF) + h_base h in
  Z.lor (Z.land (h_opcode h) 0xFFFF0000) (Z.land (Z.shiftr full 16 + (if Z.land full 0x8000 =? 0 then 0 else 1)) 0xFFFF).
Lemma process_values hs lo b : forall acts, processHi16Entries hs lo b = ROk (acts, true) ->
  (forall h, In h hs -> h_base h = b) /\ acts = map (fun h => (h_offset h, hi_word h lo)) hs.
Proof.
  induction hs as [| h hs IH]; intros acts; cbn [processHi16Entries].
  - intros H. apply ROk_inj in H. injection H as <-. split; [intros h [] | reflexivity].
  - cbv zeta. destruct (Z.eqb_spec (h_base h) b) as [E | E]; cbn [negb].
    + destruct (negb _) eqn:E'; [discriminate |].
      intros H. apply do_ok in H. destruct H as ([ac o] & R & H). apply ok2 in H. cbn [fst snd] in H. destruct H as (<- & ->).
      destruct (IH _ R) as (A & ->). split; [intros h' [<- | I]; auto |]. reflexivity.
    + intros H. apply do_ok in H. destruct H as ([ac o] & R & H). apply ok2 in H; destruct H as (_ & H); discriminate.
Qed.
