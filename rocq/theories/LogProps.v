(** Property theorems: C55 (the logger does not lose errors). *)

Require Import ZArith List Bool String Lia.
From Verif Require Import LogModel LogSpec LogProofs.
Import ListNotations.
Local Open Scope string_scope.

(** hasError is true exactly if an error was printed since the last reset. *)
Theorem C55_error_status : forall ops, l_error (log_run ops) = true <-> failed (rev ops).
Proof. intros ops. exact (k_error _ _ (run_keeps ops)). Qed.

(** Once true it stays true until the next reset. *)
Theorem C55_error_stays : forall before after, ~ In OReset after ->
  l_error (log_run before) = true -> l_error (log_run (before ++ after)) = true.
Proof.
  intros before after H E. apply (k_error _ _ (run_keeps _)). rewrite rev_app_distr.
  apply (k_error _ _ (run_keeps before)) in E. rewrite in_rev in H. induction (rev after) as [|o l IH]; [exact E|].
  cbn [app]. apply f_later; [intros ->; apply H; left; reflexivity|]. apply IH. intros Q. apply H. right. exact Q.
Qed.

(** Messages queued in a pass that is dropped have no effect on the status. *)
Theorem C55_dropped_queue : forall before queued after,
  (forall o, In o queued -> exists t x, o = OQueue t x) ->
  log_run (before ++ queued ++ ODrop :: after) = log_run (before ++ ODrop :: after).
Proof.
  intros before queued after H. unfold log_run. rewrite !fold_left_app. cbn [fold_left]. f_equal.
  generalize (fold_left log_step before initial) as s. induction queued as [|o q IH]; intros s; [reflexivity|].
  cbn [fold_left]. destruct (H o (or_introl eq_refl)) as (t & x & ->).
  rewrite IH by (intros o' Ho; apply H; right; exact Ho).
  cbn [log_step]. unfold queue_error, clear_queue. destruct (l_level s) eqn:E; cbn [l_errors l_error l_fatal l_strict l_silent l_level l_out]; rewrite ?E; reflexivity.
Qed.

(** Matching suppressions leave the level as it was. *)
Theorem C55_balanced : forall before calls, balanced calls ->
  l_level (log_run (before ++ calls)) = l_level (log_run before).
Proof. intros before calls B. unfold log_run. rewrite fold_left_app. exact (level_run calls B _). Qed.

(** Suppressing output does suppress the status: the claim that it does not is false. *)
Theorem C55_suppressed_error_refuted :
  l_error (log_run [OPrint Error "e"]) = true /\
  l_error (log_run [OSuppress; OPrint Error "e"; OUnsuppress]) = false.
Proof. split; reflexivity. Qed.

(** A message queued after the flush of a pass is never seen: dropping the queue is the only thing
    that happens to it. *)
Theorem C55_late_queue : forall before t x,
  l_error (log_run (before ++ [OQueue t x])) = l_error (log_run before) /\
  l_errors (log_run (before ++ [OQueue t x])) = l_errors (log_run before).
Proof.
  intros before t x. unfold log_run. rewrite fold_left_app. cbn [fold_left log_step]. unfold queue_error.
  destruct (l_level (fold_left log_step before initial)); split; reflexivity.
Qed.

Example C55_ex : failed (rev [OStrict true; OQueue Warning "w"; OFlush; ODrop; OPrint Notice "n"]).
Proof.
  cbn [rev app]. apply f_later; [discriminate|]. apply f_later; [discriminate|].
  apply (f_flush Warning "w"); [apply w_here; reflexivity|reflexivity].
Qed.
Example C55_ex_not : ~ failed (rev [OPrint Warning "w"; OQueue Error "e"; ODrop; OFlush; OPrint Error "x"; OReset]).
Proof. intros H. apply (k_error _ _ (run_keeps _)) in H. cbn in H. discriminate. Qed.
Example C55_ex_balanced : balanced [OSuppress; OPrint Error "e"; OSuppress; OUnsuppress; OUnsuppress; OFlush].
Proof.
  apply (bal_pair [OPrint Error "e"; OSuppress; OUnsuppress] [OFlush]).
  - apply bal_other; try discriminate. apply (bal_pair [] []); constructor.
  - apply bal_other; try discriminate. constructor.
Qed.

Print Assumptions C55_error_status.
Print Assumptions C55_error_stays.
Print Assumptions C55_dropped_queue.
Print Assumptions C55_balanced.
Print Assumptions C55_suppressed_error_refuted.
Print Assumptions C55_late_queue.
