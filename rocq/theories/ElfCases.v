(** Object files for the cases beside the theorems of [ElfProps]. *)

Require Import ZArith Lia Bool String List.
Require Import ZifyBool.
Require Import Verif.Ints Verif.Res Verif.ElfModel Verif.ElfSpec.
Import ListNotations.
Local Open Scope Z_scope.

Ltac each I := match type of I with In _ ?l => let l' := eval vm_compute in l in change l with l' in I end; cbn [In] in I; repeat (destruct I as [<- | I]); [.. | destruct I].
Ltac well := constructor;
  [ vm_compute; repeat (constructor; [cbn [In]; lia |]); constructor
  | let s := fresh in let I := fresh in intros s I; each I; vm_compute; auto
  | let s := fresh in let I := fresh in intros s I; each I; vm_compute; auto
  | let s := fresh in let I := fresh in intros s I; each I; vm_compute; (split; [discriminate | reflexivity])
  | let s := fresh in let I := fresh in intros s I; each I; vm_compute; auto; discriminate
  | let s := fresh in let I := fresh in intros s I; each I; repeat (constructor; [unfold is_byte; lia |]); constructor
  | let s := fresh in let I := fresh in intros s I; each I; vm_compute; (split; [reflexivity | split; discriminate]) ].

Definition out_of (r : res (list Z * Z * list placed * bool)) : list Z := match r with ROk (out, _, _, _) => out | _ => [] end.
Definition placed_of (r : res (list Z * Z * list placed * bool)) (n : nat) : placed :=
  match r with ROk (_, _, ps, _) => nth n ps (mkPlaced [] 0 [] [] false) | _ => mkPlaced [] 0 [] [] false end.

(** Words in little endian order. *)
Definition le (ws : list Z) : list Z := flat_map (split_word false) ws.
Definition case_labels (name : string) : option elabel :=
  if String.eqb name "puts" then Some (mkLabel 0x80001000 false 0)
  else if String.eqb name "thumb" then Some (mkLabel 0x2001002 false 1)
  else if String.eqb name "arm" then Some (mkLabel 0x2001100 false 0) else None.

(** ** MIPS *)
Definition m_rels : list erel := [mkRel 0 R_MIPS_HI16 2 0; mkRel 4 R_MIPS_LO16 2 0; mkRel 8 R_MIPS_26 3 0; mkRel 16 R_MIPS_32 2 0].
Definition m_text : esec := mkSec 1 false 20 4 (le [0x3C040001; 0x24848004; 0x0C000002; 0; 0x10]) m_rels.
Definition m_data : esec := mkSec 2 false 5 8 [1; 2; 3; 4; 5] [].
Definition m_bss : esec := mkSec 3 true 16 16 [] [].
Definition m_symbols : list esym :=
  [ mkSym "" 0 0 0 0 0; mkSym "" 0 0 0 3 1; mkSym "table" 2 3 STB_GLOBAL STT_OBJECT 2; mkSym "puts" 0 0 STB_GLOBAL 0 0;
    mkSym "buf" 8 12 STB_GLOBAL STT_OBJECT SHN_COMMON; mkSym "abs" 0x1234 0 STB_WEAK 0 SHN_ABS ].
Definition m_obj : efile := mkFile false [m_text; m_data; m_bss] m_symbols.
Definition m_start : Z := 0x8010FFF2.
Definition m_result := relocate Mips case_labels m_start [m_obj; m_obj].
Definition m_out : list Z := out_of m_result.

Lemma m_well : well_formed m_obj.
Proof. well. Qed.
Lemma m_apart : separate m_text.
Proof.
  split.
  - repeat constructor; unfold apart; cbn; lia.
  - repeat (constructor; [cbn; lia |]). constructor.
Qed.
Lemma m_imported : imported Mips case_labels m_start [m_obj; m_obj] m_out m_obj (placed_of m_result 0) m_text 0x8010FFF4.
Proof.
  constructor; [| | | reflexivity | exact m_apart].
  - eexists. eexists. split; [vm_compute; reflexivity | left; reflexivity].
  - repeat (constructor; [exact m_well |]). constructor.
  - vm_compute. auto.
Qed.
(** "table" is at an offset of 2 in the second section, which is at 0x80110008. *)
Lemma m_table r : In r [mkRel 0 R_MIPS_HI16 2 0; mkRel 4 R_MIPS_LO16 2 0; mkRel 16 R_MIPS_32 2 0] ->
  refers Mips case_labels m_obj (placed_of m_result 0) r 0x8011000A false.
Proof.
  intros I. exists (mkSym "table" 2 3 STB_GLOBAL STT_OBJECT 2). cbn [In] in I.
  assert (E : r_sym r = 2) by (repeat destruct I as [<- | I]; [reflexivity .. | destruct I]). rewrite E.
  split; [lia |]. split; [reflexivity |]. split; [discriminate |].
  apply (sa_section Mips case_labels m_obj _ (mkSym "table" 2 3 STB_GLOBAL STT_OBJECT 2) m_data 0x80110008); [vm_compute; auto | reflexivity].
Qed.
Lemma m_puts : refers Mips case_labels m_obj (placed_of m_result 0) (mkRel 8 R_MIPS_26 3 0) 0x80001000 false.
Proof.
  exists (mkSym "puts" 0 0 STB_GLOBAL 0 0). split; [reflexivity |]. split; [reflexivity |]. split; [discriminate |].
  apply (sa_external Mips case_labels m_obj _ (mkSym "puts" 0 0 STB_GLOBAL 0 0) (mkLabel 0x80001000 false 0)); [reflexivity | discriminate | reflexivity].
Qed.

(** ** ARM: an ARM and a Thumb section *)
Definition a_rels : list erel :=
  [mkRel 0 R_ARM_CALL 3 0; mkRel 4 R_ARM_JUMP24 4 0; mkRel 8 R_ARM_ABS32 2 0; mkRel 12 R_ARM_V4BX 0 0].
Definition a_text : esec := mkSec 1 false 16 4 (le [0xEBFFFFFE; 0x0AFFFFFE; 0; 0xE12FFF1E]) a_rels.
Definition a_thumb_rels : list erel := [mkRel 2 R_ARM_THM_CALL 3 0; mkRel 8 R_ARM_THM_CALL 4 0].
Definition a_thumb : esec := mkSec 2 false 12 4 ([0; 0] ++ le [0xFFFEF7FF] ++ [0; 0] ++ le [0xFFFEF7FF]) a_thumb_rels.
Definition a_symbols : list esym :=
  [ mkSym "" 0 0 0 0 0; mkSym "" 0 0 0 3 1; mkSym "f" 3 0 STB_GLOBAL STT_FUNC 2; mkSym "thumb" 0 0 STB_GLOBAL 0 0; mkSym "arm" 0 0 STB_GLOBAL 0 0 ].
Definition a_obj : efile := mkFile false [a_text; a_thumb] a_symbols.
Definition a_start : Z := 0x2000000.
Definition a_result := relocate (Arm true) case_labels a_start [a_obj].
Definition a_out : list Z := out_of a_result.
Lemma a_well : well_formed a_obj.
Proof. well. Qed.
Lemma a_apart : separate a_text.
Proof. split; [repeat constructor; unfold apart; cbn; lia | repeat (constructor; [cbn; lia |]); constructor]. Qed.
Lemma a_thumb_apart : separate a_thumb.
Proof. split; [repeat constructor; unfold apart; cbn; lia | repeat (constructor; [cbn; lia |]); constructor]. Qed.
Lemma a_imported : imported (Arm true) case_labels a_start [a_obj] a_out a_obj (placed_of a_result 0) a_text 0x2000000.
Proof.
  constructor; [| | | reflexivity | exact a_apart].
  - eexists. eexists. split; [vm_compute; reflexivity | left; reflexivity].
  - repeat (constructor; [exact a_well |]). constructor.
  - vm_compute. auto.
Qed.
Lemma a_thumb_imported : imported (Arm true) case_labels a_start [a_obj] a_out a_obj (placed_of a_result 0) a_thumb 0x2000010.
Proof.
  constructor; [| | | reflexivity | exact a_thumb_apart].
  - eexists. eexists. split; [vm_compute; reflexivity | left; reflexivity].
  - repeat (constructor; [exact a_well |]). constructor.
  - vm_compute. auto.
Qed.
(** "f" is Thumb code at an offset of 2 in the second section. *)
Lemma a_f : refers (Arm true) case_labels a_obj (placed_of a_result 0) (mkRel 8 R_ARM_ABS32 2 0) 0x2000012 true.
Proof.
  exists (mkSym "f" 3 0 STB_GLOBAL STT_FUNC 2). split; [reflexivity |]. split; [reflexivity |]. split; [discriminate |].
  apply (sa_section (Arm true) case_labels a_obj _ (mkSym "f" 3 0 STB_GLOBAL STT_FUNC 2) a_thumb 0x2000010); [vm_compute; auto | reflexivity].
Qed.
Lemma a_ext_thumb o t a : refers (Arm true) case_labels a_obj (placed_of a_result 0) (mkRel o t 3 a) 0x2001002 true.
Proof.
  exists (mkSym "thumb" 0 0 STB_GLOBAL 0 0). split; [reflexivity |]. split; [reflexivity |]. split; [discriminate |].
  apply (sa_external (Arm true) case_labels a_obj _ (mkSym "thumb" 0 0 STB_GLOBAL 0 0) (mkLabel 0x2001002 false 1)); [reflexivity | discriminate | reflexivity].
Qed.
Lemma a_ext_arm o t a : refers (Arm true) case_labels a_obj (placed_of a_result 0) (mkRel o t 4 a) 0x2001100 false.
Proof.
  exists (mkSym "arm" 0 0 STB_GLOBAL 0 0). split; [reflexivity |]. split; [reflexivity |]. split; [discriminate |].
  apply (sa_external (Arm true) case_labels a_obj _ (mkSym "arm" 0 0 STB_GLOBAL 0 0) (mkLabel 0x2001100 false 0)); [reflexivity | discriminate | reflexivity].
Qed.

(** ** SuperH, in big endian order *)
Definition be (ws : list Z) : list Z := flat_map (split_word true) ws.
Definition s_rels : list erel := [mkRel 0 R_SH_DIR32 1 4; mkRel 4 R_SH_REL32 1 0].
Definition s_text : esec := mkSec 1 false 12 4 (be [0x20; 0x10; 0]) s_rels.
Definition s_obj : efile := mkFile true [s_text] [mkSym "" 0 0 0 0 0; mkSym "here" 8 4 STB_GLOBAL STT_OBJECT 1].
Definition s_start : Z := 0x6004002.
Definition s_result := relocate Sh case_labels s_start [s_obj].
Definition s_out : list Z := out_of s_result.
Lemma s_well : well_formed s_obj.
Proof. well. Qed.
Lemma s_imported : imported Sh case_labels s_start [s_obj] s_out s_obj (placed_of s_result 0) s_text 0x6004004.
Proof.
  constructor; [| | | reflexivity |].
  - eexists. eexists. split; [vm_compute; reflexivity | left; reflexivity].
  - repeat (constructor; [exact s_well |]). constructor.
  - vm_compute. auto.
  - split; [repeat constructor; unfold apart; cbn; lia | repeat (constructor; [cbn; lia |]); constructor].
Qed.
Lemma s_here o t a : refers Sh case_labels s_obj (placed_of s_result 0) (mkRel o t 1 a) 0x600400C false.
Proof.
  exists (mkSym "here" 8 4 STB_GLOBAL STT_OBJECT 1). split; [reflexivity |]. split; [reflexivity |]. split; [discriminate |].
  apply (sa_section Sh case_labels s_obj _ (mkSym "here" 8 4 STB_GLOBAL STT_OBJECT 1) s_text 0x6004004); [vm_compute; auto | reflexivity].
Qed.

(** ** Objects for which the full claims fail; the section is at [start] *)
Definition one (big : bool) (data : list Z) (rels : list erel) (symbols : list esym) : efile :=
  mkFile big [mkSec 1 false (Z.of_nat (length data)) 4 data rels] (mkSym "" 0 0 0 0 0 :: symbols).
Definition text_of (f : efile) : esec := nth 0 (ef_sections f) (mkSec 0 true 0 1 [] []).
Ltac imports := constructor;
  [ eexists; eexists; split; [vm_compute; reflexivity | left; reflexivity]
  | repeat (constructor; [well |]); constructor
  | vm_compute; auto
  | reflexivity
  | split; [repeat constructor; unfold apart; cbn; lia | repeat (constructor; [cbn; lia |]); constructor] ].

(** A word that refers to a common symbol. *)
Definition common : esym := mkSym "c" 4 8 STB_GLOBAL STT_OBJECT SHN_COMMON.
Definition common_obj (type : Z) : efile := one false (le [0x10]) [mkRel 0 type 1 0] [common].
(** A word whose addend is in the relocation. *)
Definition rela_obj (type : Z) : efile := one false (le [0x10]) [mkRel 0 type 1 4] [mkSym "d" 0 0 STB_GLOBAL STT_OBJECT 1].
