(** Programs for the theorems about the assembly loop, and what running them gives. *)

Require Import ZArith List Bool Lia.
From Verif Require Import Ints Res FileModel FileSpec AllocModel AsmModel AsmSpec.
Import ListNotations.
Local Open Scope Z_scope.

Definition num (n : Z) : expr := fun _ => Some n.
Definition lbl (l : nat) : expr := fun v => if l_def (v_labels v l) then Some (l_val (v_labels v l)) else None.
Definition plus (a b : expr) : expr := fun v => match a v, b v with Some x, Some y => Some (x + y) | _, _ => None end.
Definition here : expr := fun v => Some (v_virtual v).
(** Data whose values are expressions *)
Definition values (l : list expr) : nat -> view -> list Z * bool := fun _ v =>
  (map (fun e => match eval e v with Some x => x | None => 0 end) l, existsb (fun e => negb (is_some (eval e v))) l).
Fixpoint block (l : list src) : src := match l with [] => CNop | c :: l => CSeq c (block l) end.

Definition start (files : list gfile) (d : disk) : world :=
  mkWorld (new_manager files d) (fun _ => mkLab false 0 None) alloc_initial [] (fun _ => 0) 0 AInvalid no_delay.
Definition everything : nat -> bool := fun _ => true.
Definition outcome (files : list gfile) (d : disk) (c : src) (names : list nat) : res (bool * list (option (list Z))) :=
  do r <- run everything false c (start files d);
  let (ok, w) := r in ROk (ok, map (f_disk (w_fm w)) names).

Lemma outcome_run files d c names ok l : outcome files d c names = ROk (ok, l) ->
  exists w, run everything false c (start files d) = ROk (ok, w) /\ map (f_disk (w_fm w)) names = l.
Proof.
  unfold outcome. destruct (run everything false c (start files d)) as [[ok' w]| |]; cbn [rbind]; try discriminate. intros H. exists w. split; congruence.
Qed.

(** A created file at 0x8000000 *)
Definition one_file : list gfile := [new_file 5 0 MCreate 0x8000000].
Definition nothing : disk := fun _ => None.

(** ldr with a literal, a forward reference, an alignment, a condition on a label, a pool, a filled area, and a
    block that is put into it *)
Definition arm_load (id : nat) (v : expr) : src := CLoad id false v (fun _ => None) (fun d => if d <? 0 then 0xE51F0000 - d else 0xE59F0000 + d).
Definition thumb_load (id : nat) (v : expr) : src := CLoad id true v (fun x => if (0 <=? x) && (x <? 256) then Some (0x2000 + x) else None) (fun d => 0x4800 + d / 4).
Definition sample : src := block
  [ CArch AArm false; COpen 0;
    arm_load 0 (lbl 2); thumb_load 1 (lbl 2); thumb_load 2 (num 7);
    CLabel 1 None; CData 2 (values [lbl 2; lbl 1; num 0x1234]);
    CAlign AlignVirtual (num 4) (Some (num 0xEE));
    CCond (CIfdef 3) (CData 1 (values [num 1; num 2; num 3; num 4])) (CData 1 (values [num 9]));
    CPool;
    CLabel 2 None;
    CArea true (num 12) (Some (num 0xFF)) None (CSeq (CLabel 3 None) (CData 1 (values [num 0x11; num 0x22])));
    CAuto None None (CSeq (CLabel 4 None) (CData 2 (values [lbl 4])));
    CData 1 (values [num 0x77]); CClose ].
Definition sample_out : list Z :=
  [0x0C; 0; 0x9F; 0xE5; 0x03; 0x48; 0x07; 0x20] ++
  [0x18; 0; 0x08; 0; 0x34; 0x12; 0xEE; 0xEE] ++ [1; 2; 3; 4] ++ [0x18; 0; 0; 8] ++
  [0x11; 0x22; 0x1A; 0x00; 0xFF; 0xFF; 0xFF; 0xFF; 0xFF; 0xFF; 0xFF; 0xFF] ++ [0x77].
Lemma sample_runs : outcome one_file nothing sample [5%nat] = ROk (true, [Some sample_out]).
Proof. vm_compute. reflexivity. Qed.

(** Without imports no label belongs to one. *)
Fixpoint objectless (c : src) : bool :=
  match c with
  | CSeq a b | CCond _ a b => objectless a && objectless b
  | CFunction _ c | CMacro c | CArea _ _ _ _ c | CAuto _ _ c => objectless c
  | CObj _ _ => false
  | _ => true
  end.
Lemma objectless_owns c k : objectless c = true -> ~ owns c k.
Proof. induction c; cbn [objectless owns]; rewrite ?andb_true_iff; try tauto; intuition discriminate. Qed.
Lemma objectless_apart c : objectless c = true -> apart c.
Proof.
  induction c; cbn [objectless apart]; rewrite ?andb_true_iff; try tauto; try discriminate; try (intros [H1 H2]; split; [auto|]; split; intros k Hk; exfalso; [exact (objectless_owns _ _ H1 Hk)|exact (objectless_owns _ _ H2 Hk)]).
  intros H. split; [auto|]. apply objectless_owns, H.
Qed.
Lemma start_fresh files c : objectless c = true -> f_files (w_fm (start files nothing)) = files -> Forall (fun g => g_open g = false) files -> Forall (fun g => is_int64 (g_header0 g)) files ->
  well_formed files c -> NoDup (ids c) -> fresh files c (start files nothing).
Proof. intros B F O H W N. constructor; [exact F|unfold quiet; rewrite F; exact O|reflexivity|exact H|exact W|exact N|exact (objectless_apart _ B)]. Qed.
Lemma one_open : Forall (fun g => g_open g = false) one_file. Proof. repeat constructor. Qed.
Lemma one_header : Forall (fun g => is_int64 (g_header0 g)) one_file. Proof. repeat constructor; unfold is_int64, int64_min, int64_max; cbn; lia. Qed.
Lemma sample_fresh : fresh one_file sample (start one_file nothing).
Proof.
  apply start_fresh; [reflexivity|reflexivity|exact one_open|exact one_header| |].
  - unfold sample, arm_load, thumb_load, valid_unit, one_file. cbn [well_formed block List.length]. unfold valid_unit. intuition lia.
  - cbn. repeat constructor; cbn; intuition discriminate.
Qed.

(** An alignment below zero *)
Definition below : list gfile := [new_file 5 0 MCreate (-3)].
Definition align_below : src := block [CArch AArm false; COpen 0; CAlign AlignVirtual (num 4) None; CData 1 (values [num 1])].
Lemma align_below_runs : outcome below nothing align_below [5%nat] = ROk (true, [Some [0; 0; 0; 0; 0; 0; 0; 1]]).
Proof. vm_compute. reflexivity. Qed.

(** An area without fill byte, one whose contents leave it and come back *)
Definition area_short : src := block [CArch AArm false; COpen 0; CArea false (num 8) None None (CData 1 (values [num 1])); CLabel 1 None; CData 1 (values [num 2])].
Lemma area_short_runs : outcome one_file nothing area_short [5%nat] = ROk (true, [Some [1; 2] ]).
Proof. vm_compute. reflexivity. Qed.
Definition area_leaves : src := block [CArch AArm false; COpen 0;
  CArea false (num 2) (Some (num 0)) None (block [COrg false (num 0x8000004); CData 1 (values [num 9]); COrg false (num 0x8000000); CData 1 (values [num 1])])].
Lemma area_leaves_runs : outcome one_file nothing area_leaves [5%nat] = ROk (true, [Some [1; 0; 0; 0; 9] ]).
Proof. vm_compute. reflexivity. Qed.

(** Labels that appear one after the other, so that many passes are needed: the number of passes decides about the pool. *)
Fixpoint chain (n : nat) : list src :=
  match n with O => [] | S n => chain n ++ [CCond (CIfdef (S n)) (CLabel n None) CNop] end.
Definition slow (n : nat) : src := block ([CArch AArm false; COpen 0] ++ chain n ++ [CLabel n None; arm_load 0 (num 5); arm_load 1 (num 5); CPool]).
Lemma fast_runs : outcome one_file nothing (slow 3) [5%nat] = ROk (true, [Some [0x00; 0; 0x9F; 0xE5; 0x04; 0; 0x1F; 0xE5; 5; 0; 0; 0] ]).
Proof. vm_compute. reflexivity. Qed.
Lemma slow_runs : outcome one_file nothing (slow 15) [5%nat] = ROk (true, [Some [0x00; 0; 0x9F; 0xE5; 0x00; 0; 0x9F; 0xE5; 5; 0; 0; 0; 5; 0; 0; 0] ]).
Proof. vm_compute. reflexivity. Qed.

(** Data before the first table and before the first architecture; the parser leaves the last architecture current. *)
Definition text_first : src := block [COpen 0; CData 1 (fun t _ => if Nat.eqb t 0 then ([], true) else ([Z.of_nat t], false)); CTable 7; CLabel 1 None].
Definition half_first : src := block [COpen 0; CData 2 (values [num 0x1234]); CArch AMips true].
Definition started (k : arch_kind) : world :=
  mkWorld (new_manager one_file nothing) (fun _ => mkLab false 0 None) alloc_initial [] (fun _ => 0) 0 k no_delay.
Definition outcome_at (w : world) (c : src) (names : list nat) : res (bool * list (option (list Z))) :=
  do r <- run everything false c w; let (ok, w) := r in ROk (ok, map (f_disk (w_fm w)) names).
Lemma outcome_at_run w0 c names ok l : outcome_at w0 c names = ROk (ok, l) ->
  exists w, run everything false c w0 = ROk (ok, w) /\ map (f_disk (w_fm w)) names = l.
Proof.
  unfold outcome_at. destruct (run everything false c w0) as [[ok' w]| |]; cbn [rbind]; try discriminate. intros H. exists w. split; congruence.
Qed.
Lemma text_first_runs : outcome_at (started AMips) text_first [5%nat] = ROk (true, [Some [7] ]).
Proof. vm_compute. reflexivity. Qed.
Lemma half_first_runs : outcome_at (started AMips) half_first [5%nat] = ROk (true, [Some [0x12; 0x34] ]).
Proof. vm_compute. reflexivity. Qed.

(** Errors: a label defined twice; a condition that never settles *)
Definition twice : src := block [CArch AArm false; COpen 0; CLabel 1 None; CLabel 1 None; CData 1 (values [num 1])].
Lemma twice_runs : outcome one_file nothing twice [5%nat] = ROk (false, [None]).
Proof. vm_compute. reflexivity. Qed.
Definition restless : src := block [CArch AArm false; COpen 0;
  CCond (CIf (fun v => Some (if l_val (v_labels v 1%nat) =? 0x8000001 then 0 else 1))) (CData 1 (values [num 1])) CNop; CLabel 1 None].
Lemma restless_runs : outcome one_file nothing restless [5%nat] = ROk (false, [None]).
Proof. vm_compute. reflexivity. Qed.

(** A place in a file, while validating and while encoding *)
Definition at_place (open : bool) (v : Z) (d : disk) : fmgr :=
  mkMgr [mkFile 5 0 MCreate 0x8000000 0x8000000 v open (if open then v - 0x8000000 else 0) false] (Some 0%nat) false d false false.
Definition placed (open : bool) (v : Z) (d : disk) : world :=
  mkWorld (at_place open v d) (fun _ => mkLab false 0 None) alloc_initial [] (fun _ => 0) 0 AArm no_delay.
Definition three : disk := fun n => if Nat.eqb n 5 then Some [1; 2; 3] else None.
(** What validating and encoding there gives *)
Definition checked (c : src) (a : ann c) : option (ann c * world) :=
  match validate everything false 0 c a (placed false 0x8000003 nothing) with ROk (a', w', false) => if has_error w' then None else Some (a', w') | _ => None end.
Definition done (c : src) (a : ann c) : option (world * world) :=
  match checked c a with
  | Some (a', w') => match encode everything false c a' (placed true 0x8000003 three) with ROk e' => Some (w', e') | _ => None end
  | None => None
  end.
Lemma placed_sync v : 0x8000000 <= v < 0x9000000 -> sync one_file (w_fm (placed false v nothing)) (w_fm (placed true v three)).
Proof.
  intros R. constructor.
  - split; [repeat constructor|repeat constructor].
  - repeat constructor.
  - intros [|j] g H; cbn in *; [congruence|destruct j; discriminate].
  - intros n H. exfalso. apply H. reflexivity.
  - cbn. eexists. split; [reflexivity|]. constructor; cbn; try reflexivity; unfold is_int64, int64_min, int64_max; lia.
Qed.
Lemma done_carried c a w' e' : done c a = Some (w', e') -> well_formed one_file c -> NoDup (ids c) -> flags (fun _ => mkLab false 0 None) c a -> w_slots w' = (fun _ => 0) ->
  carried_out one_file everything false c (placed false 0x8000003 nothing) (placed true 0x8000003 three) w' e'.
Proof.
  unfold done, checked. intros H W N F Sl. destruct (validate _ _ _ _ _ _) as [[[a' w1] [|]]| |] eqn:V; try discriminate.
  destruct (has_error w1) eqn:B; [discriminate|]. destruct (encode _ _ _ _ _) as [e1| |] eqn:E; try discriminate. injection H as <- <-.
  constructor; [exact one_header|apply placed_sync; lia|exact W|exact N|rewrite Sl; reflexivity| |exact B].
  exists 0, false, a, a'. auto.
Qed.
Lemma done_some c a : match done c a with Some _ => True | None => False end -> exists w' e', done c a = Some (w', e').
Proof. destruct (done c a) as [[w' e']|]; [eauto|intros []]. Qed.
