(** Concrete ARM lines. *)

Require Import ZArith Lia Bool List String Ascii.
Require Import Verif.Ints Verif.Res Verif.ExprModel Verif.ParseModel Verif.LexModel Verif.FloatModel Verif.ArmModel Verif.ArmLineModel
  Verif.ArmSpec Verif.ArmWordSpec Verif.ArmWordIface Verif.ArmLineSpec Verif.ArmNameProofs Verif.ArmOperandProofs Verif.ArmTryProofs.
Import ListNotations.
Local Open Scope Z_scope.

(** Numbers only; no expression functions. *)
Definition ev (e : expr) : value :=
  match e with EInt z => VInt z | EUn UNeg (EInt z) => VInt (- z) | _ => VInvalid end.
Definition nofun (n : string) : bool := false.
Definition line (s : string) : list token := match tokenize (fun _ => None) s with ROk ts => ts | _ => [] end.
(** The line at address 0x1000, with a literal pool at 0x1010. *)
Definition asm (arch : arm_arch) (s : string) : res (Z * option Z) := arm_line nofun 0 0 arch 0 ev (line s) 0x1000 0x1010.
Definition read_as (arch : arm_arch) (s : string) (o : arm_opcode) (u : said) (ps : list piece) : Prop :=
  first_reading nofun 0 0 ArmOpcodes arch (line s) o u ps [].

Lemma first_of isfun file section arch ts o s v r u ps r' : parseArmOpcode isfun file section arch ts = LOpcode o s v r ->
  reads isfun file section arch ts o u ps r' -> first_reading isfun file section ArmOpcodes arch ts o u ps r'.
Proof.
  intros H R. pose proof (opcode_spec isfun file section arch ts) as P. rewrite H in P.
  destruct P as (name & ts' & u' & ps' & v0 & -> & F & I & _). assert (F' := F). destruct F' as (_ & _ & _ & R' & _).
  destruct (reads_once _ _ _ _ _ _ _ _ _ _ _ _ I R R') as (-> & -> & ->). exact F.
Qed.
Definition row (arch : arm_arch) (s : string) : arm_opcode :=
  match parseArmOpcode nofun 0 0 arch (line s) with LOpcode o _ _ _ => o | _ => mkArmOp "" "" 0 0 0 end.
Lemma read_of arch s v u ps r o : parseArmOpcode nofun 0 0 arch (line s) = LOpcode (row arch s) o v r ->
  reads nofun 0 0 arch (line s) (row arch s) u ps [] -> read_as arch s (row arch s) u ps.
Proof. intros H R. eapply first_of; eassumption. Qed.

Ltac in_list := cbn; solve [repeat (first [left; reflexivity | right])].
Ltac regs := apply reg_lookup; reflexivity.
Ltac number := split; [intros ? ? X; discriminate X|vm_compute; reflexivity].
Ltac step :=
  first
  [ apply l_end
  | eapply l_reg; [in_list|regs|discriminate|]
  | eapply l_cop; [in_list|apply cop_lookup; reflexivity|]
  | eapply l_cp; [apply cp_lookup; reflexivity|]
  | apply l_wb | eapply l_no_wb; [discriminate|]
  | apply l_user | eapply l_no_user; [discriminate|]
  | apply l_plus | apply l_minus | eapply l_no_sign; [discriminate|discriminate|]
  | eapply l_num; [in_list|number|]
  | eapply l_len; [number|]
  | eapply l_symbol; [in_list|]
  | eapply l_optional; [in_list|]
  | eapply l_omitted; [in_list|discriminate|] ].
Lemma words_spells t : forall s u, In (s, u) (words t) -> spells t s u.
Proof.
  induction t as [|c t IH]; intros s u H.
  - destruct H as [H|[]]. injection H as <- <-. constructor.
  - cbn [words] in H.
    destruct (Ascii.eqb_spec c "C") as [->|]. { apply in_extend in H. destruct H as (nm & a & s' & u' & I & J & -> & ->). apply sp_cond; auto. }
    destruct (Ascii.eqb_spec c "S") as [->|].
    { apply in_extend in H. destruct H as (nm & a & s' & u' & [I|[I|[]]] & J & -> & ->); injection I as <- <-.
      - apply (sp_s false); auto.
      - apply (sp_s true); auto. }
    destruct (Ascii.eqb_spec c "A") as [->|]. { apply in_extend in H. destruct H as (nm & a & s' & u' & I & J & -> & ->). apply sp_mode; auto. }
    destruct (Ascii.eqb_spec c "X") as [->|]. { apply in_extend in H. destruct H as (nm & a & s' & u' & I & J & -> & ->). apply sp_x; auto. }
    destruct (Ascii.eqb_spec c "Y") as [->|]. { apply in_extend in H. destruct H as (nm & a & s' & u' & I & J & -> & ->). apply sp_y; auto. }
    apply in_map_iff in H. destruct H as ((s' & u') & E & H). injection E as <- <-. apply sp_letter; [|auto].
    unfold letter. apply negb_true_iff. rewrite !orb_false_iff. repeat split; apply Ascii.eqb_neq; assumption.
Qed.
Ltac spell := apply words_spells; vm_compute; solve [repeat (first [left; reflexivity | right])].
Ltac reading :=
  eapply read_of; [vm_compute; reflexivity|];
  split; [intros (_ & X); discriminate X|]; eexists _, _; split; [vm_compute; reflexivity|]; split; [spell|].
Ltac layout := match goal with |- lays _ _ _ ?m _ _ _ => let x := eval vm_compute in m in change m with x end; repeat step.
Ltac asking := unfold asks; repeat (match goal with |- _ /\ _ => split | |- Forall _ _ => constructor end); try reflexivity; try discriminate; try (vm_compute; reflexivity).

(** Conditions, flags and a rotated constant. *)
Definition plain : said := mkSaid 14 0 false false false.
Definition add_u : said := mkSaid 0 0 true false false.
Definition add_q : aops := mkAops 0 true 0 false false 0 1 0 0 WNone 0xFF00 false 0 false false false 0 0 0 0 0 0 0 true.
Lemma add_read : read_as AARCH_NDS "addeqs r0,r1,#0xFF00" (row AARCH_NDS "addeqs r0,r1,#0xFF00") add_u
  [PReg RD 0; PReg RN 1; PNum NImm (EInt 0xFF00)].
Proof. reading. layout. Qed.
Lemma add_asks : asks 0 ev AARCH_NDS add_u [PReg RD 0; PReg RN 1; PNum NImm (EInt 0xFF00)] add_q.
Proof. asking. Qed.

(** A user-mode load without an offset. *)
Definition ldrt_q : aops := mkAops 14 false 0 false false 0 1 0 0 WNone 0 false 0 false false false 0 0 0 0 0 0 0 true.
Lemma ldrt_read : read_as AARCH_NDS "ldrt r0,[r1]" (row AARCH_NDS "ldrt r0,[r1]") plain [PReg RD 0; PReg RN 1].
Proof. reading. layout. Qed.
Lemma ldrt_asks : asks 0 ev AARCH_NDS plain [PReg RD 0; PReg RN 1] ldrt_q.
Proof. asking. Qed.

(** A line that has an instruction, but not the one it is assembled to. *)
Definition misassembled (arch : arm_arch) (s : string) : Prop :=
  exists o u ps f q w lit, read_as arch s o u ps /\ arm_form (op_name o) (op_mask o) = Some f /\ asks 0 ev arch u ps q /\
    arm_fits f q 0x1000 0x1010 (whole_imm ev ps) /\ asm arch s = ROk (w, lit) /\
    forall a, arm_decode 0x1000 w = Some a -> ~ arm_means f q 0x1000 lit 0x1010 a.
(** A line that has no instruction, but is accepted. *)
Definition wrongly_accepted (arch : arm_arch) (s : string) : Prop :=
  exists o u ps f q w lit, read_as arch s o u ps /\ arm_form (op_name o) (op_mask o) = Some f /\ asks 0 ev arch u ps q /\
    ~ arm_fits f q 0x1000 0x1010 (whole_imm ev ps) /\ asm arch s = ROk (w, lit).
Ltac show r q := eexists _, _, _, _, q, _, _; split; [exact r|]; split; [vm_compute; reflexivity|].

Lemma ldrt_wrong : misassembled AARCH_NDS "ldrt r0,[r1]".
Proof.
  show ldrt_read ldrt_q. split; [exact ldrt_asks|]. split; [exact Logic.I|]. split; [vm_compute; reflexivity|].
  intros a H. vm_compute in H. injection H as <-. intros (_ & off & M & _). vm_compute in M. discriminate M.
Qed.

Definition smlal_q : aops := mkAops 14 false 0 false false 1 0 2 3 WNone 0 false 0 false false false 0 0 0 0 0 0 0 true.
Lemma smlal_read : read_as AARCH_NDS "smlalbb r0,r1,r2,r3" (row AARCH_NDS "smlalbb r0,r1,r2,r3") plain
  [PReg RN 0; PReg RD 1; PReg RM 2; PReg RS 3].
Proof. reading. layout. Qed.
Lemma smlal_wrong : misassembled AARCH_NDS "smlalbb r0,r1,r2,r3".
Proof.
  show smlal_read smlal_q. split; [asking|]. split; [exact Logic.I|]. split; [vm_compute; reflexivity|].
  intros a H. vm_compute in H. injection H as <-. intros (_ & M). vm_compute in M. discriminate M.
Qed.

Definition ldrd_q : aops := mkAops 14 false 0 false false 1 2 0 0 WNone 0 false 0 false false false 0 0 0 0 0 0 0 true.
Lemma ldrd_read : read_as AARCH_NDS "ldrd r1,[r2]" (row AARCH_NDS "ldrd r1,[r2]") plain [PReg RD 1; PReg RN 2].
Proof. reading. layout. Qed.
Lemma ldrd_wrong : misassembled AARCH_NDS "ldrd r1,[r2]".
Proof.
  show ldrd_read ldrd_q. split; [asking|]. split; [exact Logic.I|]. split; [vm_compute; reflexivity|].
  intros a H. vm_compute in H. discriminate H.
Qed.

Definition mcr_q : aops := mkAops 14 false 0 false false 2 0 0 0 WNone 0 false 0 false false false 0 1 0 3 4 9 5 true.
Lemma mcr_read : read_as AARCH_NDS "mcr p1,9,r2,c3,c4,5" (row AARCH_NDS "mcr p1,9,r2,c3,c4,5") plain
  [PCop CP 1; PNum NOpc1 (EInt 9); PReg RD 2; PCop CN 3; PCop CM 4; PNum NOpc2 (EInt 5)].
Proof. reading. layout. Qed.
Lemma mcr_wrong : misassembled AARCH_NDS "mcr p1,9,r2,c3,c4,5".
Proof.
  show mcr_read mcr_q. split; [asking|]. split; [vm_compute; split; discriminate|]. split; [vm_compute; reflexivity|].
  intros a H. vm_compute in H. injection H as <-. intros (_ & M). vm_compute in M. discriminate M.
Qed.

Definition mov_q (s : wshift) : aops := mkAops 14 false 0 false false 0 0 1 0 s 0 false 0 false false false 0 0 0 0 0 0 0 true.
Lemma ror_read : read_as AARCH_NDS "mov r0,r1,ror #32" (row AARCH_NDS "mov r0,r1,ror #32") plain
  [PReg RD 0; PReg RM 1; PShift (Some (3, ByNum (EInt 32)))].
Proof. reading. layout. eapply l_shift; [apply (shift_word _ _ _ _ "ror" 3); [in_list|apply by_hash; number]|]. layout. Qed.
Lemma ror_wrong : wrongly_accepted AARCH_NDS "mov r0,r1,ror #32".
Proof.
  show ror_read (mov_q (WImm 3 32)). split; [asking; eexists; split; reflexivity|].
  split; [intros (x & X); vm_compute in X; discriminate X|]. vm_compute. reflexivity.
Qed.

Lemma rrx_read : read_as AARCH_NDS "mov r0,r1,rrx r2" (row AARCH_NDS "mov r0,r1,rrx r2") plain
  [PReg RD 0; PReg RM 1; PShift (Some (4, ByReg 2))].
Proof. reading. layout. eapply l_shift; [apply (shift_word _ _ _ _ "rrx" 4); [in_list|apply by_reg; [reflexivity|regs]]|]. layout. Qed.
Lemma rrx_wrong : misassembled AARCH_NDS "mov r0,r1,rrx r2".
Proof.
  show rrx_read (mov_q (WReg 4 2)). split; [asking|]. split; [exact Logic.I|].
  split; [vm_compute; reflexivity|].
  intros a H. vm_compute in H. discriminate H.
Qed.

Lemma lsl_read : read_as AARCH_NDS "mov r0,r1,lsl 0x100000001" (row AARCH_NDS "mov r0,r1,lsl 0x100000001") plain
  [PReg RD 0; PReg RM 1; PShift (Some (0, ByNum (EInt 0x100000001)))].
Proof. reading. layout. eapply l_shift; [apply (shift_word _ _ _ _ "lsl" 0); [in_list|apply by_num; [discriminate|number]]|]. layout. Qed.
Lemma lsl_wrong : wrongly_accepted AARCH_NDS "mov r0,r1,lsl 0x100000001".
Proof.
  show lsl_read (mov_q (WImm 0 0x100000001)). split; [asking; eexists; split; reflexivity|].
  split; [intros (x & X); vm_compute in X; discriminate X|]. vm_compute. reflexivity.
Qed.

(** Post-indexed by a register with a sign. *)
Lemma minus_read : read_as AARCH_NDS "str r0,[r1],-r2" (row AARCH_NDS "str r0,[r1],-r2") plain
  [PReg RD 0; PReg RN 1; PNum NImm (EUn UNeg (EIdent "r2" 0 0))].
Proof. reading. layout. Qed.
Definition post_row : arm_opcode := row AARCH_NDS "str r0,[r1],r2".
Lemma minus_fits : reads nofun 0 0 AARCH_NDS (line "str r0,[r1],-r2") post_row plain
  [PReg RD 0; PReg RN 1; PMinus true; PReg RM 2; PShift None] [].
Proof.
  split; [intros (_ & X); discriminate X|]; eexists _, _; split; [vm_compute; reflexivity|]; split; [spell|].
  layout. eapply l_shift; [apply no_shift; discriminate|]. layout.
Qed.
