(** ARM source lines: mnemonics, operands, and the way from the line to the instruction. *)

Require Import ZArith Bool List String Ascii.
Require Import Verif.Ints Verif.Res Verif.ExprModel Verif.ParseModel Verif.ArmModel Verif.ArmLineModel Verif.ArmSpec Verif.ArmIface Verif.ArmRowProofs Verif.ArmWordSpec
  Verif.ArmWordIface Verif.ArmLineSpec Verif.ArmNameProofs Verif.ArmLayoutProofs Verif.ArmTryProofs Verif.ArmLineEnd Verif.ArmLineCases.
Import ListNotations.
Local Open Scope Z_scope.

(** ** C73: mnemonics are read in one way *)

(** A text that spells the mnemonic of a row is read as that row, with the suffixes that are spelled. *)
Theorem C73_complete : forall o s u, In o ArmOpcodes -> spells (op_name o) s u ->
  exists v, decodeArmOpcode s o = Some v /\ u_a v = w_mode u /\ u_s v = w_s u /\ u_x v = w_x u /\ u_y v = w_y u /\
    (has_char "C" (op_name o) = true -> u_c v = w_c u).
Proof. exact name_complete. Qed.
(** No other text is. *)
Theorem C73_sound : forall o s v, In o ArmOpcodes -> decodeArmOpcode s o = Some v -> exists u, spells (op_name o) s u.
Proof. exact name_sound. Qed.
(** No text spells two operations, or one operation with different suffixes. *)
Theorem C73_one_reading : forall o o' s u u', In o ArmOpcodes -> In o' ArmOpcodes ->
  spells (op_name o) s u -> spells (op_name o') s u' -> bare (op_name o) = bare (op_name o') /\ u = u'.
Proof. exact name_unique. Qed.
(** "bls" is b with the condition ls, and not bl with an s. *)
Example C73_ex : exists o, In o ArmOpcodes /\ op_name o = "bC"%string /\ spells (op_name o) "bls" (mkSaid 9 0 false false false) /\
  forall o', In o' ArmOpcodes -> forall u, spells (op_name o') "bls" u -> bare (op_name o') = "b"%string.
Proof. exact bls_read. Qed.

(** ** C74: operands are read as they are laid out *)

(** The line is read as the first row whose syntax it fits, and rejected if there is none; the only
    lines that are not read at all contain an identifier that ends in nineteen or more digits. *)
Theorem C74_read_partial : forall isfun file section arch ts,
  match parseArmOpcode isfun file section arch ts with
  | LOpcode o s v r => exists u ps, first_reading isfun file section ArmOpcodes arch ts o u ps r
  | LError => forall o u ps r, In o ArmOpcodes -> ~ reads isfun file section arch ts o u ps r
  | LCrash => exists n p d x, In (TIdent n) ts /\ n = (p ++ d)%string /\ decimal 0 d = Some x /\ (19 <= String.length d)%nat
  end.
Proof. exact parse_reads. Qed.
(** No line fits a row in two ways, so the reading is the only one. *)
Theorem C74_once : forall isfun file section arch ts o u ps r o' u' ps' r',
  first_reading isfun file section ArmOpcodes arch ts o u ps r -> first_reading isfun file section ArmOpcodes arch ts o' u' ps' r' ->
  o = o' /\ u = u' /\ ps = ps' /\ r = r'.
Proof. exact first_once. Qed.
Theorem C74_row_once : forall isfun file section arch ts o u ps r u' ps' r', In o ArmOpcodes ->
  reads isfun file section arch ts o u ps r -> reads isfun file section arch ts o u' ps' r' -> u = u' /\ ps = ps' /\ r = r'.
Proof. exact reads_once. Qed.
Example C74_ex : read_as AARCH_NDS "addeqs r0,r1,#0xFF00" (row AARCH_NDS "addeqs r0,r1,#0xFF00") add_u
  [PReg RD 0; PReg RN 1; PNum NImm (EInt 0xFF00)].
Proof. exact add_read. Qed.

(** Twenty digits after the name of a shift: the conversion throws an exception that nothing catches. *)
Theorem C74_digits_refuted : asm AARCH_NDS "mov r0,r1,lsl12345678901234567890" = RUb.
Proof. vm_compute. reflexivity. Qed.
(** A post-indexed store with a subtracted register is taken for one with the number "-r2". *)
Theorem C74_minus_refuted :
  reads nofun 0 0 AARCH_NDS (line "str r0,[r1],-r2") post_row plain [PReg RD 0; PReg RN 1; PMinus true; PReg RM 2; PShift None] [] /\
  read_as AARCH_NDS "str r0,[r1],-r2" (row AARCH_NDS "str r0,[r1],-r2") plain
    [PReg RD 0; PReg RN 1; PNum NImm (EUn UNeg (EIdent "r2" 0 0))] /\
  asm AARCH_NDS "str r0,[r1],-r2" = RErr.
Proof. exact (conj minus_fits (conj minus_read eq_refl)). Qed.
(** What follows the letters of a status register is not looked at. *)
Theorem C74_status_refuted : asm AARCH_NDS "msr cpsr_fsxcxyz,r0" = asm AARCH_NDS "msr cpsr_fsxc,r0" /\
  asm AARCH_NDS "msr cpsr_fsxc,r0" = ROk (0xE12FF000, None).
Proof. vm_compute. split; reflexivity. Qed.

(** ** C75: an ARM line becomes the instruction it names *)

(** For a line at a word address: if it is assembled to the word [w], its operands are in range and [w]
    decodes to the instruction that the line asks for; if it is rejected, it fits no row, or its
    operands are out of range; undefined behaviour has one of the causes listed.  [arm_sane]
    leaves out the lines for which this is false; see below. *)
Theorem C75_line_partial : forall isfun file section nan ev arch ts addr pool, addr mod 4 = 0 ->
  match arm_line isfun file section arch nan ev ts addr pool with
  | ROk (w, lit) => exists o u ps r f q, first_reading isfun file section ArmOpcodes arch ts o u ps r /\
      arm_form (op_name o) (op_mask o) = Some f /\ asks nan ev arch u ps q /\
      forall q, asks nan ev arch u ps q -> arm_sane f q ->
        arm_fits f q addr pool (whole_imm ev ps) /\ exists a, arm_decode addr w = Some a /\ arm_means f q addr lit pool a
  | RErr => (forall o u ps r, In o ArmOpcodes -> ~ reads isfun file section arch ts o u ps r) \/
      exists o u ps r f, first_reading isfun file section ArmOpcodes arch ts o u ps r /\
        arm_form (op_name o) (op_mask o) = Some f /\
        forall q, asks nan ev arch u ps q -> arm_sane f q -> ~ arm_fits f q addr pool (whole_imm ev ps)
  | RUb => (exists n, In (TIdent n) ts /\ long_digits n) \/
      exists o u ps r f, first_reading isfun file section ArmOpcodes arch ts o u ps r /\
        arm_form (op_name o) (op_mask o) = Some f /\
        (f = FHalfAbs \/ exists q, asks nan ev arch u ps q /\
           forall q, asks nan ev arch u ps q -> arm_sane f q -> arm_undefined f q addr pool)
  end.
Proof. exact arm_line_claim. Qed.
(** adds with a condition and a rotated constant *)
Example C75_ex : 0x1000 mod 4 = 0 /\ asm AARCH_NDS "addeqs r0,r1,#0xFF00" = ROk (0x02910CFF, None) /\
  read_as AARCH_NDS "addeqs r0,r1,#0xFF00" (row AARCH_NDS "addeqs r0,r1,#0xFF00") add_u [PReg RD 0; PReg RN 1; PNum NImm (EInt 0xFF00)] /\
  asks 0 ev AARCH_NDS add_u [PReg RD 0; PReg RN 1; PNum NImm (EInt 0xFF00)] add_q /\ arm_sane (FDpImm 4 SelRn SelRd) add_q /\
  arm_decode 0x1000 0x02910CFF = Some (ADp 0 4 true 1 0 (OpImm 0xFF00)).
Proof.
  split; [reflexivity|]. split; [vm_compute; reflexivity|]. split; [exact add_read|]. split; [exact add_asks|]. split; [split; exact I|].
  vm_compute. reflexivity.
Qed.

(** A user-mode transfer without an offset is assembled with pre-index and write-back. *)
Theorem C75_user_refuted : misassembled AARCH_NDS "ldrt r0,[r1]".
Proof. exact ldrt_wrong. Qed.
(** smlal of bottom halves takes the top half of the first operand. *)
Theorem C75_smlal_refuted : misassembled AARCH_NDS "smlalbb r0,r1,r2,r3".
Proof. exact smlal_wrong. Qed.
(** A doubleword transfer of an odd register is assembled to an undefined instruction. *)
Theorem C75_odd_refuted : misassembled AARCH_NDS "ldrd r1,[r2]".
Proof. exact ldrd_wrong. Qed.
(** A coprocessor transfer with an opcode above 7 is assembled to a software interrupt. *)
Theorem C75_cop_refuted : misassembled AARCH_NDS "mcr p1,9,r2,c3,c4,5".
Proof. exact mcr_wrong. Qed.
(** rrx by a register is assembled to an undefined instruction. *)
Theorem C75_rrx_refuted : misassembled AARCH_NDS "mov r0,r1,rrx r2".
Proof. exact rrx_wrong. Qed.
(** A rotation by 32, which is written to r1 instead of r0, and a shift by more than 32 bits are accepted. *)
Theorem C75_ror_refuted : wrongly_accepted AARCH_NDS "mov r0,r1,ror #32" /\
  asm AARCH_NDS "mov r0,r1,ror #32" = ROk (0xE1A01061, None) /\ arm_decode 0x1000 0xE1A01061 = Some (ADp 14 13 false 0 1 (OpShift 1 ShRRX)).
Proof. split; [exact ror_wrong|]. split; vm_compute; reflexivity. Qed.
Theorem C75_shift_refuted : wrongly_accepted AARCH_NDS "mov r0,r1,lsl 0x100000001".
Proof. exact lsl_wrong. Qed.
(** A halfword store to an address uses an uninitialised register number. *)
Theorem C75_strh_refuted : asm AARCH_NDS "strh r0,[0x1010]" = RUb.
Proof. vm_compute. reflexivity. Qed.
(** A software interrupt with a negative number shifts a negative number. *)
Theorem C75_swi_refuted : asm AARCH_NDS "swi -1" = RUb.
Proof. vm_compute. reflexivity. Qed.

Print Assumptions C73_complete.
Print Assumptions C73_sound.
Print Assumptions C73_one_reading.
Print Assumptions C74_read_partial.
Print Assumptions C74_once.
Print Assumptions C74_row_once.
Print Assumptions C74_digits_refuted.
Print Assumptions C74_minus_refuted.
Print Assumptions C74_status_refuted.
Print Assumptions C75_line_partial.
Print Assumptions C75_user_refuted.
Print Assumptions C75_smlal_refuted.
Print Assumptions C75_odd_refuted.
Print Assumptions C75_cop_refuted.
Print Assumptions C75_rrx_refuted.
Print Assumptions C75_ror_refuted.
Print Assumptions C75_shift_refuted.
Print Assumptions C75_strh_refuted.
Print Assumptions C75_swi_refuted.
