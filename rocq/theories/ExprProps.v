(** Property theorems C01, C02, C06, C07, C08 (expressions). *)

Require Import ZArith Bool List String Ascii Lia.
Require Import Floats.SpecFloat.
Require Import Verif.Ints Verif.ExprModel Verif.ExprFuncModel Verif.ExprSpec.
Require Import Verif.ExprProofs Verif.ExprCmpProofs Verif.ExprFoldProofs.
Import ListNotations.
Local Open Scope Z_scope.

(** *** C01: integer operators *)

(** For all 64-bit operands and all binary operators: the only undefined pairs are the listed ones,
    otherwise the result is the 64-bit integer described by [int_meaning], and a single warning is
    queued exactly for the division fallbacks. *)
Theorem C01_integer_binary : forall reg st op a b, is_int64 a -> is_int64 b ->
  (int_undefined op a b /\ eval reg st (EBin op (EInt a) (EInt b)) = OUb) \/
  (~ int_undefined op a b /\
   exists r ms, eval reg st (EBin op (EInt a) (EInt b)) = OVal (VInt r) ms /\
     is_int64 r /\ int_meaning op a b r /\
     ((int_warned op a b /\ exists m, ms = [m] /\ is_warning m) \/
      (~ int_warned op a b /\ ms = []))).
Proof. exact eval_bin_int. Qed.
Print Assumptions C01_integer_binary.

Theorem C01_integer_unary : forall reg st op a, is_int64 a ->
  (op = UNeg /\ a = int64_min /\ eval reg st (EUn op (EInt a)) = OUb) \/
  (~ (op = UNeg /\ a = int64_min) /\
   exists r, eval reg st (EUn op (EInt a)) = OVal (VInt r) [] /\ is_int64 r /\ unop_meaning op a r).
Proof. exact eval_un_int. Qed.
Print Assumptions C01_integer_unary.

(** A host, a state and registries for the examples. *)
Definition ex_host : host :=
  mkHost (fun _ => "1.0"%string) (fun _ => "1"%string) (fun _ _ => None) (fun _ _ => None)
         (fun _ _ => None).
Definition ex_ctx : context :=
  mkCtx (mkFs (fun _ => false) (fun _ => 0) (fun _ => None)) true false ex_host.
Definition ex_label (n : string) (_ _ : Z) : option label_info :=
  if String.eqb n "start" then Some (mkLabel true 134217728 (Some 0))
  else if String.eqb n "later" then Some (mkLabel false 0 None)
  else None.
Definition ex_state : estate :=
  mkState ex_label true 134217760 32 134217728 false "out.bin" ex_ctx.
Definition ex_state2 : estate :=
  mkState (fun _ _ _ => Some (mkLabel true 77 None)) false 4096 0 0 true "other.bin" ex_ctx.
Definition ex_reg : registry := make_registry mips_functions [].
Definition f_neg (m : positive) (e : Z) : spec_float := S754_finite true m e.

Example C01_ex_shift : eval ex_reg ex_state (EBin BShr (EInt (-1)) (EInt 60)) = OVal (VInt 15) [].
Proof. reflexivity. Qed.
Example C01_ex_div : eval ex_reg ex_state (EBin BDiv (EInt (-7)) (EInt 2)) = OVal (VInt (-3)) []
  /\ eval ex_reg ex_state (EBin BMod (EInt (-7)) (EInt 2)) = OVal (VInt (-1)) []
  /\ eval ex_reg ex_state (EBin BDiv (EInt 5) (EInt 0)) = OVal (VInt (-1)) [msg_div_zero].
Proof. repeat split. Qed.
Example C01_ex_ub : eval ex_reg ex_state (EBin BAdd (EInt int64_max) (EInt 1)) = OUb
  /\ int_undefined BAdd int64_max 1 /\ is_int64 int64_max /\ is_int64 1.
Proof. unfold int_undefined, is_int64, int64_max, int64_min. repeat split; try lia. Qed.

(** *** C02: constant folding *)

(** Whenever simplification completes, the simplified tree evaluates to the same result as the
    original in every state with the same parse-time context (files, CPU mode, functions), no
    message of the original evaluation is lost, and a tree marked constant is the same constant in
    every state. Missing from the full property: see C02_untaken_branch_refuted. *)
Theorem C02_folding_preserves_partial : forall arch users u st0 e e' c ms,
  In arch [[]; mips_functions; arm_functions] ->
  let reg := make_registry arch users in
  simplify reg st0 u e = OVal (e', c) ms ->
  (forall st, s_ctx st = s_ctx st0 ->
     result_of (eval reg st e') = result_of (eval reg st e) /\
     incl (messages_of (eval reg st e)) (ms ++ messages_of (eval reg st e'))) /\
  (c = true -> exists v, forall st, eval reg st e' = OVal v []).
Proof. exact fold_preserves. Qed.
Print Assumptions C02_folding_preserves_partial.

(** min(1+2, start) * (7/0): the constant parts are folded, the label stays. *)
Example C02_ex :
  let e := EBin BMult (ECall "min" [EBin BAdd (EInt 1) (EInt 2); EIdent "start" 0 1])
             (EBin BDiv (EInt 7) (EInt 0)) in
  simplify ex_reg ex_state false e =
    OVal (EBin BMult (ECall "min" [EInt 3; EIdent "start" 0 1]) (EInt (-1)), false) [msg_div_zero]
  /\ eval ex_reg ex_state2 e = OVal (VInt (-3)) [msg_div_zero].
Proof. split; reflexivity. Qed.

(** Folding evaluates the branch of [c ? a : b] that is not taken; with substr this throws an
    uncaught exception although evaluating the expression gives 0. *)
Theorem C02_untaken_branch_refuted : exists reg st e,
  eval reg st e = OVal (VInt 0) [] /\ simplify reg st false e = OThrow.
Proof.
  exists ex_reg, ex_state,
    (ECond (EInt 0) (ECall "substr" [EStr "ab"; EInt 3; EInt 1]) (EInt 0)).
  split; reflexivity.
Qed.
Print Assumptions C02_untaken_branch_refuted.

(** *** C06: logical operators *)

(** All comparison operators on all values, && and || on integers. Missing: && and || with a float
    (false, see below) or string operand (always 0). *)
Theorem C06_logical_partial : forall reg st op a b r ms,
  In op [BLogAnd; BLogOr; BLt; BLe; BGt; BGe; BEq; BNe] ->
  (In op [BLogAnd; BLogOr] -> (exists x, a = VInt x) /\ (exists y, b = VInt y)) ->
  eval reg st (EBin op (const_expr a) (const_expr b)) = OVal r ms ->
  (r = VInt 0 \/ r = VInt 1) /\ ms = [] /\
  (op = BLogAnd -> (r = VInt 1 <-> truth a /\ truth b)) /\
  (op = BLogOr -> (r = VInt 1 <-> truth a \/ truth b)).
Proof. exact logic_ints. Qed.
Print Assumptions C06_logical_partial.

Theorem C06_not_partial : forall reg st a,
  (exists x, a = VInt x) \/ (exists f, a = VFloat f) ->
  exists r, eval reg st (EUn ULogNot (const_expr a)) = OVal (VInt r) [] /\ is01 (~ truth a) r.
Proof. exact lognot_numbers. Qed.
Print Assumptions C06_not_partial.

Example C06_ex : eval ex_reg ex_state (EBin BLogAnd (EInt 5) (EInt (-2))) = OVal (VInt 1) []
  /\ eval ex_reg ex_state (EBin BLt (EFloat (f_neg 1 0)) (EInt 0)) = OVal (VInt 1) []
  /\ eval ex_reg ex_state (EBin BEq (EInt 12) (EStr "12")) = OVal (VInt 1) [].
Proof. repeat split. Qed.

(** 1.0 && 1 is 4607182418800017408. *)
Theorem C06_float_refuted : forall reg st, exists a b r,
  valid_type a /\ valid_type b /\
  eval reg st (EBin BLogAnd (const_expr a) (const_expr b)) = OVal (VInt r) [] /\
  r = 4607182418800017408.
Proof.
  intros reg st. exists (VFloat (S754_finite false 4503599627370496 (-52))), (VInt 1).
  eexists. repeat split; discriminate.
Qed.
Print Assumptions C06_float_refuted.

(** *** C07: comparisons *)

Theorem C07_comparisons : forall reg st a b, comparable a b ->
  ((cmp_true reg st BLt a b /\ cmp_false reg st BEq a b /\ cmp_false reg st BGt a b) \/
   (cmp_false reg st BLt a b /\ cmp_true reg st BEq a b /\ cmp_false reg st BGt a b) \/
   (cmp_false reg st BLt a b /\ cmp_false reg st BEq a b /\ cmp_true reg st BGt a b)) /\
  (cmp_true reg st BLe a b <-> cmp_false reg st BGt a b) /\
  (cmp_false reg st BLe a b <-> cmp_true reg st BGt a b) /\
  (cmp_true reg st BGe a b <-> cmp_false reg st BLt a b) /\
  (cmp_false reg st BGe a b <-> cmp_true reg st BLt a b) /\
  (cmp_true reg st BNe a b <-> cmp_false reg st BEq a b) /\
  (cmp_false reg st BNe a b <-> cmp_true reg st BEq a b).
Proof. exact comparisons_coherent. Qed.
Print Assumptions C07_comparisons.

Theorem C07_transitive : forall reg st a b c,
  same_kind a b -> same_kind b c ->
  cmp_true reg st BLt a b -> cmp_true reg st BLt b c -> cmp_true reg st BLt a c.
Proof. exact comparisons_transitive. Qed.
Print Assumptions C07_transitive.

Example C07_ex : comparable (VStr "ab") (VStr "b") /\ comparable (VInt 3) (VFloat (f_neg 3 1))
  /\ cmp_true ex_reg ex_state BLt (VStr "ab") (VStr "b")
  /\ cmp_true ex_reg ex_state BGt (VInt 3) (VFloat (f_neg 3 1))
  /\ cmp_true ex_reg ex_state BLt (VInt (-4)) (VInt 4).
Proof.
  split; [right; eauto|]. split; [left; cbn; split; [auto|discriminate]|].
  repeat split; reflexivity.
Qed.

(** *** C08: min and max *)

Theorem C08_min_int : forall arch users st ps,
  (1 <= List.length ps <= 256)%nat -> all_ints ps -> (forall z, In (VInt z) ps -> is_int64 z) ->
  exists m, eval (make_registry arch users) st (ECall "min" (map const_expr ps)) = OVal (VInt m) [] /\
    In (VInt m) ps /\ (forall z, In (VInt z) ps -> m <= z).
Proof. exact min_int. Qed.
Print Assumptions C08_min_int.

Theorem C08_max_int : forall arch users st ps,
  (1 <= List.length ps <= 256)%nat -> all_ints ps -> (forall z, In (VInt z) ps -> is_int64 z) ->
  exists m, eval (make_registry arch users) st (ECall "max" (map const_expr ps)) = OVal (VInt m) [] /\
    In (VInt m) ps /\ (forall z, In (VInt z) ps -> m >= z).
Proof. exact max_int. Qed.
Print Assumptions C08_max_int.

(** With a float among the arguments: min needs one argument that is not +infinity. *)
Theorem C08_min_float_partial : forall arch users st ps,
  (1 <= List.length ps <= 256)%nat -> all_numbers ps -> some_float ps ->
  (exists v, In v ps /\ SFleb (as_double v) dbl_max = true) ->
  exists m, eval (make_registry arch users) st (ECall "min" (map const_expr ps)) = OVal (VFloat m) [] /\
    In m (map as_double ps) /\ (forall v, In v ps -> SFleb m (as_double v) = true).
Proof. exact min_float. Qed.
Print Assumptions C08_min_float_partial.

(** With a float among the arguments: max needs an argument of at least 2.2e-308. *)
Theorem C08_max_float_partial : forall arch users st ps,
  (1 <= List.length ps <= 256)%nat -> all_numbers ps -> some_float ps ->
  (exists v, In v ps /\ SFleb dbl_min (as_double v) = true) ->
  exists m, eval (make_registry arch users) st (ECall "max" (map const_expr ps)) = OVal (VFloat m) [] /\
    In m (map as_double ps) /\ (forall v, In v ps -> SFleb (as_double v) m = true).
Proof. exact max_float. Qed.
Print Assumptions C08_max_float_partial.

Example C08_ex :
  let ps := [VInt 4; VFloat (f_neg 4503599627370496 (-52)); VInt (-3)] in
  all_numbers ps /\ some_float ps /\
  (exists v, In v ps /\ SFleb (as_double v) dbl_max = true) /\
  (exists v, In v ps /\ SFleb dbl_min (as_double v) = true) /\
  eval ex_reg ex_state (ECall "min" (map const_expr ps)) = OVal (VFloat (int_to_double (-3))) [].
Proof.
  cbn zeta. split.
  { intros v Hv. cbn in Hv. destruct Hv as [<-|[<-|[<-|[]]]]; cbn; auto. discriminate. }
  split; [eexists; right; left; reflexivity|].
  split; [exists (VInt (-3)); split; [cbn; auto|reflexivity]|].
  split; [exists (VInt 4); split; [cbn; auto|reflexivity]|reflexivity].
Qed.

(** max(-1.0, -2.0) is the smallest positive normal double. *)
Theorem C08_max_refuted : exists ps m,
  all_numbers ps /\ (1 <= List.length ps <= 256)%nat /\
  eval ex_reg ex_state (ECall "max" (map const_expr ps)) = OVal (VFloat m) [] /\
  ~ In m (map as_double ps) /\ m = dbl_min.
Proof.
  exists [VFloat (f_neg 4503599627370496 (-52)); VFloat (f_neg 4503599627370496 (-51))], dbl_min.
  split.
  { intros v Hv. cbn in Hv. destruct Hv as [<-|[<-|[]]]; cbn; discriminate. }
  split; [cbn; lia|]. split; [reflexivity|]. split; [|reflexivity].
  intros Hin. cbn in Hin. destruct Hin as [H|[H|[]]]; discriminate.
Qed.
Print Assumptions C08_max_refuted.
