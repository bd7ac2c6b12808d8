(** Cases for the PlayStation object properties. *)

Require Import ZArith List Bool Lia.
From Verif Require Import Ints Res PsxModel PsxSpec PsxLinkSpec PsxImportProofs.
Import ListNotations.
Local Open Scope Z_scope.

Definition main : list Z := [109; 97; 105; 110].
Definition table : list Z := [116; 97; 98; 108; 101].
Definition room : list Z := [114; 111; 111; 109].
Definition print : list Z := [112; 114; 105; 110; 116].

(** Code and data, with all kinds of records.  The code: lui/addiu for [print], lui/addiu for the second word of the
    data segment, and a call of [print]. *)
Definition sample : list record :=
  [Segment 1 [46; 116]; Segment 2 [46; 100]; Group [1; 0; 8] [103]; Source [3; 0] [120; 46; 99]; Nop;
   Select 1; Zeroes 4; Data [0; 0; 4; 60; 0; 0; 132; 36]; Reloc UpperImmediate 0 Nothing (AtSymbol 7); Reloc LowerImmediate 4 Nothing (AtSymbol 7);
   Data [0; 0; 5; 60; 0; 0; 165; 36; 0; 0; 0; 12];
   Reloc UpperImmediate 0 (Plus 4) (AtSegment 2 0); Reloc LowerImmediate 4 (Plus 4) (AtSegment 2 0); Reloc FunctionCall 8 Nothing (AtSymbol 7);
   Select 2; Data [1; 0; 0; 0; 0; 0; 0; 0; 9]; Reloc WordLiteral 4 (Minus 8) (AtSymbol 5);
   Defined 1 4 main; DefinedId 6 2 4 table; Extern 7 print; Area 5 2 10 room;
   Routine 1 0 (repeat 0 22) [102]; RoutineEnd (repeat 0 10); Note3C [0; 0]; Note32 [0; 0]; Note3A (repeat 0 8)].

Example sample_fine : Forall fine sample /\ ordered [] None false sample.
Proof.
  split; [unfold sample; repeat constructor; cbn; unfold is_u16, is_int32, fine_text; cbn; try lia |].
  cbn. repeat split; try discriminate; try (intros H; cbn in H; lia); auto.
Qed.
Example sample_contents : contents sample =
  mkPfile [mkPseg 1 [0; 0; 0; 0; 0; 0; 4; 60; 0; 0; 132; 36; 0; 0; 5; 60; 0; 0; 165; 36; 0; 0; 0; 12]
             [mkPrel UpperImmediate SymblId 4 7 0 0; mkPrel LowerImmediate SymblId 8 7 0 0;
              mkPrel UpperImmediate SegmentOffset 12 2 0 4; mkPrel LowerImmediate SegmentOffset 16 2 0 4; mkPrel FunctionCall SymblId 20 7 0 0];
           mkPseg 2 [1; 0; 0; 0; 0; 0; 0; 0; 9] [mkPrel WordLiteral SymblId 4 5 0 (-8)]]
          [mkPsym (Internal 1 4) main; mkPsym (InternalID 6 2 4) table; mkPsym (External 7) print; mkPsym (BSS 5 10) room; mkPsym (Function_ 1 0) [102]].
Proof. reflexivity. Qed.

(** A second object that calls into the first. *)
Definition other : list record :=
  [Segment 1 [46; 116]; Select 1; Data [0; 0; 0; 12]; Reloc FunctionCall 0 Nothing (AtSymbol 1); Extern 1 main; Defined 1 0 [103]].
Definition no_label : env := fun _ => None.
Definition start_labels : env := set_label no_label print 0x80050000.
Definition both : list pfile := [contents sample; contents other].

(** The labels of the steady state. *)
Definition final_labels (address : Z) (fs : list pfile) : env :=
  match psx_import start_labels address fs with ROk r => pt_labels r | _ => no_label end.
Definition labels_at_10000 : env :=
  set_label (set_label (set_label (set_label (set_label start_labels main 0x10004) table 0x1001C) room 0x10024) [102] 0x10000) [103] 0x10030.
Definition ready : list pfile := map sorted_file both.


Ltac compute_list := match goal with |- ForallOrdPairs _ ?l => let v := eval vm_compute in l in change l with v | |- Forall _ ?l => let v := eval vm_compute in l in change l with v
  | |- NoDup ?l => let v := eval vm_compute in l in change l with v end.
Ltac fine_list := compute_list; repeat first [apply FOP_nil | apply FOP_cons | apply Forall_nil | apply Forall_cons];
  unfold apart4, is_byte, size; cbn [pr_offset length sg_data]; try lia.
Ltac no_dup := compute_list; repeat (apply NoDup_cons; [intros H; repeat (destruct H as [H | H]; [discriminate H |]); destruct H |]); apply NoDup_nil.
Ltac fine_seg := constructor; [reflexivity | fine_list | fine_list; vm_compute; intuition discriminate | fine_list].
Lemma ready_fine : Forall fine_file ready.
Proof.
  apply Forall_cons; [| apply Forall_cons; [| apply Forall_nil]].
  - constructor; [no_dup | | fine_list | no_dup].
    apply Forall_cons; [fine_seg | apply Forall_cons; [fine_seg | apply Forall_nil]].
  - constructor; [no_dup | | fine_list | no_dup].
    apply Forall_cons; [fine_seg | apply Forall_nil].
Qed.
Definition nothing : pstep := mkPstep no_label [] 0 false.
Definition result_of (labels : env) (address : Z) (fs : list pfile) : pstep := match psx_import labels address fs with ROk r => r | _ => nothing end.
Definition works (labels : env) (address : Z) (fs : list pfile) : bool := match psx_import labels address fs with ROk r => pt_ok r | _ => false end.
Lemma works_result labels address fs : works labels address fs = true -> psx_import labels address fs = ROk (result_of labels address fs) /\ pt_ok (result_of labels address fs) = true.
Proof. unfold works, result_of. destruct (psx_import labels address fs); try discriminate. auto. Qed.
Definition image : list Z := pt_out (result_of labels_at_10000 0x10000 ready).
Lemma ready_settled : settled labels_at_10000 0x10000 ready image.
Proof.
  destruct (works_result labels_at_10000 0x10000 ready) as (E & O); [vm_compute; reflexivity |].
  constructor; [| exact ready_fine | no_dup]. exists (result_of labels_at_10000 0x10000 ready). split; [exact E |]. split; [exact O |]. split; [reflexivity |].
  intros n. destruct (import_labels _ _ _ _ ready_fine E O) as (_ & _ & U & _). destruct (in_dec (list_eq_dec Z.eq_dec) n (defined_names ready)) as [I | I]; [| apply U, I].
  vm_compute in I. repeat (destruct I as [<- | I]; [vm_compute; reflexivity |]). destruct I.
Qed.
