(** Property theorems: C103 (the symbols an import gives to the source). *)

Require Import ZArith String Ascii List Bool Lia.
From Verif Require Import LexModel SymModel ElfModel ExpModel ExpSpec ExpProofs.
Import ListNotations.
Local Open Scope string_scope.
Local Open Scope list_scope.
Local Open Scope Z_scope.

(** No message exactly if all symbols of all files can be defined. *)
Theorem C103_accepted : forall m t files, errs (exportSymbols m t files) = [] <-> importable t (concat files).
Proof. intros m t files. apply accepted. Qed.
Definition ex_files : list (list xsym) := [[mkX "Main" 0x11 STT_FUNC; mkX "table" 0x20 STT_OBJECT]; [mkX "helper" 0x40 0]].
Definition ex_table : xtable := fun n => if String.eqb n "start" then XLabel (mkXL 8 (Some 0) false true "start") else XFree.
Example C103_accepted_ex : importable ex_table (concat ex_files).
Proof. apply (accepted (Arm false)). vm_compute. reflexivity. Qed.

(** A label of the source, and an equ, is never changed by an import. *)
Theorem C103_kept : forall m t files n, t n <> XFree -> tab (exportSymbols m t files) n = t n.
Proof. intros m t files n. apply kept. Qed.
Example C103_kept_ex : ex_table "start" <> XFree.
Proof. vm_compute. discriminate. Qed.

(** A free name gets the label of the first symbol with that name, with its kind and the name as it is written in the file.  Missing: the info of
    symbols that are no ARM functions, see C103_info_refuted. *)
Theorem C103_defined_partial : forall m t files n s, t n = XFree -> valid_name n = true -> first_with n (concat files) s ->
  exists l, tab (exportSymbols m t files) n = XLabel l /\ xl_original l = x_name s /\ (xl_data l = true <-> x_type s = 1) /\
    xl_value l = 0 /\ xl_update l = false /\
    (forall arm9, m = Arm arm9 -> x_type s = STT_FUNC -> xl_info l = Some (x_address s mod 2)).
Proof.
  intros m t files n s F V H. exists (label_of m s). split; [apply defined; assumption|]. unfold label_of. cbn [xl_original xl_data xl_value xl_update xl_info].
  split; [reflexivity|]. split; [apply Z.eqb_eq|]. split; [reflexivity|]. split; [reflexivity|].
  intros arm9 -> T. unfold info_of, setSymbolAddress. rewrite T. reflexivity.
Qed.
Example C103_defined_partial_ex : ex_table "main" = XFree /\ first_with "main" (concat ex_files) (mkX "Main" 0x11 STT_FUNC) /\
  tab (exportSymbols (Arm false) ex_table ex_files) "main" = XLabel (mkXL 0 (Some 1) false false "Main").
Proof. split; [reflexivity|]. split; [|vm_compute; reflexivity]. apply (fw "main" [] (mkX "Main" 0x11 STT_FUNC) _); [reflexivity | intros x []]. Qed.

(** Of a label that is no ARM function the info (ARM or Thumb) comes from memory that was never set. *)
Theorem C103_info_refuted : ~ forall m t files n l, t n = XFree -> tab (exportSymbols m t files) n = XLabel l -> xl_info l <> None.
Proof.
  intros H. apply (H (Arm false) (fun _ => XFree) [[mkX "table" 0x20 STT_OBJECT]] "table" (mkXL 0 None true false "table")); vm_compute; reflexivity.
Qed.

(** No other name is defined. *)
Theorem C103_others : forall m t files n, (valid_name n = false \/ forall x, In x (concat files) -> key x <> n) -> tab (exportSymbols m t files) n = t n.
Proof. intros m t files n. apply untouched. Qed.
Example C103_others_ex : forall x, In x (concat ex_files) -> key x <> "other".
Proof. intros x H. cbn in H. repeat (destruct H as [<-|H]; [vm_compute; discriminate|]). destruct H. Qed.

(** The message that a label is defined already comes exactly for the symbols whose name is taken by the source or by an earlier symbol, also one of
    another file or one that differs in case only. *)
Theorem C103_twice : forall m t files name, In (XDefined name) (errs (exportSymbols m t files)) <->
  exists a s b, concat files = a ++ s :: b /\ x_name s = name /\ valid_name (key s) = true /\ taken t a s.
Proof. intros m t files name. apply defined_message. Qed.
Example C103_twice_ex : errs (exportSymbols Mips ex_table [[mkX "Main" 0 2]; [mkX "main" 4 2; mkX "START" 8 2; mkX "a$b" 8 2]]) =
  [XDefined "main"; XDefined "START"; XInvalid "a$b"].
Proof. vm_compute. reflexivity. Qed.

(** The addresses in the sections: those of the file, without the lowest bit for functions on ARM. *)
Theorem C103_addresses : forall m t files, importable t (concat files) ->
  Forall2 (fun s s' => x_name s' = x_name s /\ x_address s' = match m with Arm _ => if x_type s =? STT_FUNC then x_address s - x_address s mod 2 else x_address s | _ => x_address s end)
    (concat files) (syms (exportSymbols m t files)).
Proof.
  intros m t files H. unfold exportSymbols. rewrite (addresses m _ t H). induction (concat files) as [|s l IH]; [constructor|]. cbn [map]. constructor.
  - split; [reflexivity|]. unfold setSymbolAddress. cbn [x_address]. destruct m; try reflexivity. destruct (x_type s =? STT_FUNC); reflexivity.
  - apply IH. destruct H as (A & N). inversion N as [|? ? N1 N2]. split; [intros y Y; apply A; right; exact Y | exact N2].
Qed.
Example C103_addresses_ex : map x_address (syms (exportSymbols (Arm false) ex_table ex_files)) = [0x10; 0x20; 0x40].
Proof. vm_compute. reflexivity. Qed.

Print Assumptions C103_accepted.
Print Assumptions C103_kept.
Print Assumptions C103_defined_partial.
Print Assumptions C103_info_refuted.
Print Assumptions C103_others.
Print Assumptions C103_twice.
Print Assumptions C103_addresses.
