(** ARM lines: the statements of ArmLineProps.v from the lemmas. *)

Require Import ZArith Bool List String Ascii.
Require Import Verif.Ints Verif.Res Verif.ExprModel Verif.ParseModel Verif.ArmModel Verif.ArmLineModel Verif.ArmSpec Verif.ArmIface Verif.ArmRowProofs Verif.ArmWordSpec
  Verif.ArmWordIface Verif.ArmLineSpec Verif.ArmNameProofs Verif.ArmLayoutProofs Verif.ArmTryProofs Verif.ArmLineCases.
Import ListNotations.
Local Open Scope Z_scope.

Lemma name_complete o s u : In o ArmOpcodes -> spells (op_name o) s u ->
  exists v, decodeArmOpcode s o = Some v /\ u_a v = w_mode u /\ u_s v = w_s u /\ u_x v = w_x u /\ u_y v = w_y u /\
    (has_char "C" (op_name o) = true -> u_c v = w_c u).
Proof.
  intros I H. exists (suffixes_of (op_name o) u). split; [apply decode_complete; assumption|]. repeat split.
  intros C. unfold suffixes_of. cbn [u_c]. rewrite C. reflexivity.
Qed.
Lemma name_sound o s v : In o ArmOpcodes -> decodeArmOpcode s o = Some v -> exists u, spells (op_name o) s u.
Proof. intros I H. destruct (decode_sound _ _ _ I H) as (u & S & _). eauto. Qed.
Lemma parse_reads isfun file section arch ts :
  match parseArmOpcode isfun file section arch ts with
  | LOpcode o s v r => exists u ps, first_reading isfun file section ArmOpcodes arch ts o u ps r
  | LError => forall o u ps r, In o ArmOpcodes -> ~ reads isfun file section arch ts o u ps r
  | LCrash => exists n p d x, In (TIdent n) ts /\ n = (p ++ d)%string /\ decimal 0 d = Some x /\ (19 <= String.length d)%nat
  end.
Proof.
  pose proof (opcode_spec isfun file section arch ts) as H. destruct (parseArmOpcode _ _ _ _ _) as [o s v r| |].
  - destruct H as (name & ts' & u & ps & v0 & _ & F & _). eauto.
  - exact H.
  - destruct H as (n & I & p & d & x & E & D & L). exists n, p, d, x. auto.
Qed.
Lemma bls_read : exists o, In o ArmOpcodes /\ op_name o = "bC"%string /\ spells (op_name o) "bls" (mkSaid 9 0 false false false) /\
  forall o', In o' ArmOpcodes -> forall u, spells (op_name o') "bls" u -> bare (op_name o') = "b"%string.
Proof.
  assert (F : exists o, find (fun o => String.eqb (op_name o) "bC") ArmOpcodes = Some o /\ op_name o = "bC"%string).
  { eexists. split; vm_compute; reflexivity. }
  destruct F as (o & F & N). apply find_some in F. destruct F as (I & _). exists o.
  assert (S : spells (op_name o) "bls" (mkSaid 9 0 false false false)) by (rewrite N; spell).
  split; [exact I|]. split; [exact N|]. split; [exact S|]. intros o' I' u S'.
  destruct (name_unique _ _ _ _ _ I I' S S') as (E & _). rewrite N in E. rewrite <- E. reflexivity.
Qed.
