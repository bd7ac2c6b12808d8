(** Property C94: functions of .expfunc. *)

Require Import ZArith Bool List String Lia.
From Verif Require Import ExprModel ExprFuncModel ExprSpec ExprProofs ExprProps ParseModel UfuncModel UfuncSpec UfuncProofs.
Import ListNotations.
Local Open Scope string_scope.
Local Open Scope list_scope.
Local Open Scope Z_scope.

(** An expression that is evaluated without an error has the value it means, where a call of a user function is its content with the
    parameters standing for the values of the arguments; however deep the calls go. *)
Theorem C94_value_partial arch defs file section st k e v ms :
  In arch [[]; mips_functions; arm_functions] ->
  (forall d, In d defs -> Forall (fun p => known arch defs p = false /\ p <> ".") (ud_params d)) ->
  eval (functions arch defs file section k) st e = OVal v ms -> no_error ms ->
  means (base arch) (user arch defs file section) st none e v.
Proof. intros A W H N. apply (call_sound arch defs file section st A W k none e v ms); [rewrite in_place_none; exact H|exact N]. Qed.
Print Assumptions C94_value_partial.

(** An expression that means a value is evaluated to it, unless the content of a function can not be folded. *)
Theorem C94_evaluated_partial arch defs file section st e v :
  In arch [[]; mips_functions; arm_functions] ->
  (forall d, In d defs -> Forall (fun p => known arch defs p = false /\ p <> ".") (ud_params d)) ->
  means (base arch) (user arch defs file section) st none e v ->
  exists k0, forall k, (k0 <= k)%nat ->
    (exists ms, eval (functions arch defs file section k) st e = OVal v ms) \/
    exists d vs k e, In d defs /\ List.length vs = List.length (ud_params d) /\
      parse_expression (known arch defs) file section (ud_body d) = Some (e, []) /\
      forall x ms, simplify (functions arch defs file section k) st false (in_place (bound (ud_params d) vs) e) <> OVal x ms.
Proof. intros A W M. destruct (call_complete arch defs file section st A W none e v M) as [k0 H]. exists k0. intros k K. specialize (H k K). rewrite in_place_none in H. exact H. Qed.
Print Assumptions C94_evaluated_partial.

(** A definition is accepted exactly if it is well formed and the name is not a function yet. *)
Theorem C94_definition find ts d rest : define false true find ts = DAdded d rest <->
  exists w, ts = TIdent (ud_name d) :: TLParen :: w ++ TRParen :: TComma :: ud_body d ++ TSeparator :: rest /\
    names_written (ud_params d) w /\ ~ In TSeparator (ud_body d) /\ find (ud_name d) = false.
Proof. exact (define_iff find ts d rest). Qed.
Print Assumptions C94_definition.
(** In a block that is not assembled nothing is defined, in one that may be it is an error. *)
Theorem C94_blocks find in_true ts : (forall d rest, define true in_true find ts <> DAdded d rest) /\ (forall d rest, define false false find ts <> DAdded d rest).
Proof.
  unfold define. split; intros d rest; destruct (declaration ts) as [[[n ps] [|[] r]]|]; try discriminate; destruct (content r); cbn [negb]; discriminate.
Qed.
Print Assumptions C94_blocks.

(** f(n), n == 0 ? 0 : substr("ab",3,1) ends the program for n = 0. *)
Definition cut : udef := mkUdef "f" ["n"]
  [TIdent "n"; TEqual; TInt 0; TQuestion; TInt 0; TColon; TIdent "substr"; TLParen; TStr "ab"; TComma; TInt 3; TComma; TInt 1; TRParen].
Theorem C94_evaluated_refuted : means (base []) (user [] [cut] 0 0) ex_state none (ECall "f" [EInt 0]) (VInt 0) /\
  forall k, eval (functions [] [cut] 0 0 (S k)) ex_state (ECall "f" [EInt 0]) = OThrow.
Proof.
  split.
  - eapply m_user; [vm_compute; reflexivity|vm_compute; reflexivity|reflexivity|constructor; [constructor|discriminate|constructor]|].
    eapply m_yes; [eapply m_bin; [apply m_param; reflexivity|constructor|vm_compute; reflexivity]|vm_compute; reflexivity|constructor].
  - intros k. destruct k; vm_compute; reflexivity.
Qed.
Print Assumptions C94_evaluated_refuted.

(** f(n), n == 0 ? 0 : 100 / n warns of a division by zero for n = 0, though there is none. *)
Definition guarded : udef := mkUdef "f" ["n"] [TIdent "n"; TEqual; TInt 0; TQuestion; TInt 0; TColon; TInt 100; TDiv; TIdent "n"].
Theorem C94_warning_refuted k : eval (functions [] [guarded] 0 0 (S k)) ex_state (ECall "f" [EInt 0]) = OVal (VInt 0) [msg_div_zero].
Proof. destruct k; vm_compute; reflexivity. Qed.
Print Assumptions C94_warning_refuted.

(** A static label in the content is the one of the file of the call: here 10 in file 1, where the function is defined, and 20 in file 2. *)
Definition two_files : estate :=
  mkState (fun n f _ => if String.eqb n "@x" then Some (mkLabel true (10 * f) None) else None) false 0 0 0 false "" (s_ctx ex_state).
Definition static : udef := mkUdef "f" ["n"] [TIdent "n"; TPlus; TIdent "@x"].
Theorem C94_labels_refuted k : user [] [static] 1 0 "f" = Some (["n"], EBin BAdd (EIdent "n" 1 0) (EIdent "@x" 1 0)) /\
  means (base []) (user [] [static] 1 0) two_files none (ECall "f" [EInt 3]) (VInt 13) /\
  eval (functions [] [static] 2 0 (S k)) two_files (ECall "f" [EInt 3]) = OVal (VInt 23) [].
Proof.
  split; [vm_compute; reflexivity|]. split.
  - eapply m_user; [vm_compute; reflexivity|vm_compute; reflexivity|reflexivity|constructor; [constructor|discriminate|constructor]|].
    eapply m_bin; [apply m_param; reflexivity|eapply m_label; reflexivity|vm_compute; reflexivity].
  - destruct k; vm_compute; reflexivity.
Qed.
Print Assumptions C94_labels_refuted.

(** The example of the Readme: fib(n), n <= 2 ? 1 : fib(n-1)+fib(n-2). *)
Definition fib : udef := mkUdef "fib" ["n"]
  [TIdent "n"; TLessEqual; TInt 2; TQuestion; TInt 1; TColon; TIdent "fib"; TLParen; TIdent "n"; TMinus; TInt 1; TRParen; TPlus;
   TIdent "fib"; TLParen; TIdent "n"; TMinus; TInt 2; TRParen].
Example C94_case :
  define false true (known [] []) (TIdent "fib" :: TLParen :: TIdent "n" :: TRParen :: TComma :: ud_body fib ++ [TSeparator; TIdent "x"]) = DAdded fib [TIdent "x"] /\
  (forall d, In d [fib] -> Forall (fun p => known [] [fib] p = false /\ p <> ".") (ud_params d)) /\
  eval (functions [] [fib] 0 0 9) ex_state (ECall "fib" [EInt 10]) = OVal (VInt 55) [] /\
  define false true (known [] []) [TIdent "min"; TLParen; TIdent "n"; TRParen; TComma; TInt 1; TSeparator] = DWrong "Expression function already declared".
Proof.
  split; [vm_compute; reflexivity|]. split; [|split; vm_compute; reflexivity].
  intros d [<-|[]]. constructor; [|constructor]. split; [vm_compute; reflexivity|discriminate].
Qed.
