(** Properties of the assembly loop and of commands: C19 - C23, C38, C70. *)

Require Import ZArith List Bool Lia.
From Verif Require Import Ints Res FileModel BytesSpec FileSpec AllocModel AsmModel AsmSpec AsmProofs AsmSimProofs AsmRunProofs AsmTotalProofs AsmCmdProofs AsmCases.
Import ListNotations.
Local Open Scope Z_scope.

(** ** C19: an accepted program is laid out as its final labels say.
    [produces]: one pass over the program with the final labels known, writing each command where it stands.
    Objects that are imported are included, and the function for their constructors.  Not covered: .loadelf, for which it
    is refuted (C19_loadelf_refuted in ElfSaveProps), and the points in the header of AsmModel. *)
Theorem C19_layout_partial : forall files writable own_big c w w',
  fresh files c w -> run writable own_big c w = ROk (true, w') ->
  produces files (w_labels w') c (f_disk (w_fm w)) (f_disk (w_fm w')).
Proof. intros files writable own_big c w w' F H. exact (run_produces files writable own_big (fr_headers _ _ _ F) c w w' F H). Qed.

Example C19_ex : exists w', fresh one_file sample (start one_file nothing) /\
  run everything false sample (start one_file nothing) = ROk (true, w') /\ f_disk (w_fm w') 5%nat = Some sample_out.
Proof.
  destruct (outcome_run _ _ _ _ _ _ sample_runs) as (w & H & D). exists w. split; [exact sample_fresh|]. split; [exact H|]. exact (f_equal (hd None) D).
Qed.

(** ** C20: at most 100 passes, no output after an error. *)

Theorem C20_terminates : forall writable own_big c w, run writable own_big c w <> RErr.
Proof. exact run_fine. Qed.

(** The passes made are those of [rounds]; after the last one either all is well, or the result is a failure, the disk is
    as before and nothing is open. *)
Theorem C20_passes : forall files writable own_big c w ok w',
  fresh files c w -> run writable own_big c w = ROk (ok, w') -> f_printed (w_fm w) = false ->
  exists n a1 w1 again, rounds writable c (init c) (with_pool w [] (w_slots w)) n a1 w1 again /\ (n <= 100)%nat /\ (again = true -> n = 100%nat) /\
    (again = true \/ has_error w1 = true -> ok = false /\ f_disk (w_fm w') = f_disk (w_fm w) /\ quiet (w_fm w')).
Proof. exact run_cases. Qed.
(** These passes are determined. *)
Theorem C20_passes_determined : forall writable c a w n a1 w1 b1 a2 w2 b2,
  rounds writable c a w n a1 w1 b1 -> rounds writable c a w n a2 w2 b2 -> a1 = a2 /\ w1 = w2 /\ b1 = b2.
Proof. intros writable c a w n a1 w1 b1 a2 w2 b2 R1 R2. exact (rounds_fun writable c a w n a1 w1 b1 R1 a2 w2 b2 R2). Qed.
Theorem C20_parse_error : forall writable own_big c w ok w',
  run writable own_big c w = ROk (ok, w') -> f_printed (w_fm w) = true -> quiet (w_fm w) ->
  ok = false /\ f_disk (w_fm w') = f_disk (w_fm w) /\ quiet (w_fm w').
Proof. exact run_parse_error. Qed.

Example C20_ex_error : exists w', run everything false twice (start one_file nothing) = ROk (false, w') /\ f_disk (w_fm w') 5%nat = None.
Proof. destruct (outcome_run _ _ _ _ _ _ twice_runs) as (w & H & D). exists w. split; [exact H|]. exact (f_equal (hd None) D). Qed.
Example C20_ex_restless : exists w', run everything false restless (start one_file nothing) = ROk (false, w') /\ f_disk (w_fm w') 5%nat = None.
Proof. destruct (outcome_run _ _ _ _ _ _ restless_runs) as (w & H & D). exists w. split; [exact H|]. exact (f_equal (hd None) D). Qed.

(** ** C21: encoding follows the validation before it, for every command. *)
Theorem C21_encode_follows : forall files writable own_big c w e w' e',
  carried_out files writable own_big c w e w' e' ->
  sync files (w_fm w') (w_fm e') /\ place files (w_labels w) (w_slots e) c (pst_of w e) (pst_of w' e').
Proof. exact carried_place. Qed.

(** A case: an area with data and a fill byte *)
Definition ex_area : src := CArea false (num 6) (Some (num 0xFF)) None (CData 2 (values [here; num 7])).
Definition ex_area_ann : ann ex_area := (mkArea 0x8000003 6 4 0 1, [0; 0]).
Example C21_ex : exists w' e', carried_out one_file everything false ex_area (placed false 0x8000003 nothing) (placed true 0x8000003 three) w' e' /\
  f_disk (w_fm e') 5%nat = Some [1; 2; 3; 3; 0; 7; 0; 0xFF; 0xFF].
Proof.
  destruct (done ex_area ex_area_ann) as [[w' e']|] eqn:D; [|vm_compute in D; discriminate]. exists w', e'. split.
  - apply (done_carried ex_area ex_area_ann); [exact D| | |exact Logic.I|].
    + cbn. unfold valid_unit. auto.
    + constructor.
    + vm_compute in D. injection D as <- <-. reflexivity.
  - vm_compute in D. injection D as <- <-. reflexivity.
Qed.

(** ** C22: .align, .aligna, .fill, .skip *)

(** The address after .align is the least multiple, when the address is not negative; only the fill byte is written. *)
Theorem C22_align_partial : forall files writable own_big value fill w e w' e',
  carried_out files writable own_big (CAlign AlignVirtual value fill) w e w' e' ->
  exists n b f h v v', eval value (view_of w) = Some n /\ given (w_labels w) fill (pst_of w e) 0 b /\
    vpos (w_fm w) = Some (mkPos f h v) /\ vpos (w_fm w') = Some (mkPos f h v') /\
    emits files (repeat (u8 b) (Z.to_nat (v' - v))) (new_section (pst_of w e)) (pst_of w' e') /\ v <= v' /\ (0 <= v -> least_multiple n v v').
Proof.
  intros files writable own_big value fill w e w' e' C. destruct (carried_place _ _ _ _ _ _ _ _ C) as [_ Pl].
  destruct (align_result _ _ _ _ _ _ _ _ Pl) as (n & b & f & h & v & v' & H). rewrite sees_view in H. exists n, b, f, h, v, v'. exact H.
Qed.
(** Below zero it is not: from -3, .align 4 goes to 4 and not to 0. *)
Theorem C22_align_refuted : exists w', fresh below align_below (start below nothing) /\
  run everything false align_below (start below nothing) = ROk (true, w') /\
  f_disk (w_fm w') 5%nat = Some (repeat 0 7 ++ [1]) /\ g_header0 (hd (new_file 0 0 MOpen 0) below) = -3 /\ ~ least_multiple 4 (-3) (-3 + 7).
Proof.
  destruct (outcome_run _ _ _ _ _ _ align_below_runs) as (w & H & D). exists w. split.
  - apply start_fresh; [reflexivity|reflexivity|repeat constructor|repeat constructor; unfold is_int64, int64_min, int64_max; cbn; lia| |constructor].
    cbn. unfold valid_unit. intuition lia.
  - split; [exact H|]. split; [exact (f_equal (hd None) D)|]. split; [reflexivity|]. intros (_ & _ & M). specialize (M 0). lia.
Qed.
Theorem C22_aligna : forall files writable own_big value fill w e w' e',
  carried_out files writable own_big (CAlign AlignPhysical value fill) w e w' e' ->
  exists n b f h v v', eval value (view_of w) = Some n /\ given (w_labels w) fill (pst_of w e) 0 b /\
    vpos (w_fm w) = Some (mkPos f h v) /\ vpos (w_fm w') = Some (mkPos f h v') /\
    emits files (repeat (u8 b) (Z.to_nat (v' - v))) (new_section (pst_of w e)) (pst_of w' e') /\ v <= v' /\ least_multiple n (v - h) (v' - h).
Proof.
  intros files writable own_big value fill w e w' e' C. destruct (carried_place _ _ _ _ _ _ _ _ C) as [_ Pl].
  destruct (align_result _ _ _ _ _ _ _ _ Pl) as (n & b & f & h & v & v' & H). rewrite sees_view in H. exists n, b, f, h, v, v'. exact H.
Qed.
Theorem C22_fill : forall files writable own_big value fill w e w' e',
  carried_out files writable own_big (CAlign Fill value fill) w e w' e' ->
  exists n b f h v, eval value (view_of w) = Some n /\ given (w_labels w) fill (pst_of w e) 0 b /\
    vpos (w_fm w) = Some (mkPos f h v) /\ vpos (w_fm w') = Some (mkPos f h (v + n)) /\ 0 <= n /\
    emits files (repeat (u8 b) (Z.to_nat n)) (new_section (pst_of w e)) (pst_of w' e').
Proof.
  intros files writable own_big value fill w e w' e' C. destruct (carried_place _ _ _ _ _ _ _ _ C) as [_ Pl].
  destruct (align_result _ _ _ _ _ _ _ _ Pl) as (n & b & f & h & v & v' & H1 & H2 & H3 & H4 & H5 & H6 & ->). rewrite sees_view in H1. exists n, b, f, h, v.
  split; [exact H1|]. split; [exact H2|]. split; [exact H3|]. split; [exact H4|]. split; [lia|]. replace n with (v + n - v) by lia. exact H5.
Qed.
Theorem C22_skip : forall files writable own_big value w e w' e',
  carried_out files writable own_big (CSkip value) w e w' e' ->
  exists n f h v, eval value (view_of w) = Some n /\ vpos (w_fm w) = Some (mkPos f h v) /\ vpos (w_fm w') = Some (mkPos f h (s64 (v + n))) /\
    f_disk (w_fm e') = f_disk (w_fm e).
Proof.
  intros files writable own_big value w e w' e' C. destruct (carried_place _ _ _ _ _ _ _ _ C) as [_ Pl].
  destruct (skip_result _ _ _ _ _ _ Pl) as (n & f & h & v & H). rewrite sees_view in H. exists n, f, h, v. exact H.
Qed.

(** A case: from 0x8000003 to the next multiple of 16 *)
Definition ex_align : src := CAlign AlignVirtual (num 16) (Some (num 0x1EE)).
Example C22_ex : exists w' e', carried_out one_file everything false ex_align (placed false 0x8000003 nothing) (placed true 0x8000003 three) w' e' /\
  f_disk (w_fm e') 5%nat = Some ([1; 2; 3] ++ repeat 0xEE 13).
Proof.
  destruct (done ex_align (mkAlign 13 0)) as [[w' e']|] eqn:D; [|vm_compute in D; discriminate]. exists w', e'. split.
  - apply (done_carried ex_align (mkAlign 13 0)); [exact D|exact Logic.I|constructor|exact Logic.I|]. vm_compute in D. injection D as <- <-. reflexivity.
  - vm_compute in D. injection D as <- <-. reflexivity.
Qed.

(** ** C23: areas *)

(** Contents end within the area; with a fill byte the area is filled up to its end, except for a part that belongs to blocks
    put there from elsewhere, and the position is its end.  Without one nothing is written after the contents.
    Missing: that the contents write nothing outside, and that a plain area without fill byte ends at its end (below). *)
Theorem C23_area_partial : forall files writable own_big shared size fill position c w e w' e',
  carried_out files writable own_big (CArea shared size fill position c) w e w' e' ->
  exists start n p1 p2 f h v v',
    (match position with
     | Some x => eval x (view_of w) = Some start /\ goes start (new_section (pst_of w e)) p1
     | None => p1 = pst_of w e /\ start = v_virtual (view_of w)
     end) /\
    eval size (sees (w_labels w) p1) = Some n /\ 0 <= n /\ place files (w_labels w) (w_slots e) c p1 p2 /\
    p_pos p2 = Some (mkPos f h v) /\ v <= start + n /\ vpos (w_fm w') = Some (mkPos f h v') /\
    match fill with
    | Some x => v' = start + n /\
        exists b u p3, eval x (sees (w_labels w) p1) = Some b /\ v <= u <= start + n /\ p_pos p3 = Some (mkPos f h u) /\ p_disk p3 = p_disk p2 /\
          emits files (repeat (u8 b) (Z.to_nat (start + n - u))) p3 (pst_of w' e')
    | None => f_disk (w_fm e') = p_disk p2 /\ v' = if shared then start + n else v
    end.
Proof.
  intros files writable own_big shared size fill position c w e w' e' C. destruct (carried_place _ _ _ _ _ _ _ _ C) as [_ Pl].
  pose proof (area_result _ _ _ _ _ _ _ _ _ _ Pl) as H. rewrite sees_view in H. exact H.
Qed.
(** A plain area without fill byte does not take up its size: the next byte follows the contents. *)
Theorem C23_end_refuted : exists w', fresh one_file area_short (start one_file nothing) /\
  run everything false area_short (start one_file nothing) = ROk (true, w') /\ f_disk (w_fm w') 5%nat = Some [1; 2].
Proof.
  destruct (outcome_run _ _ _ _ _ _ area_short_runs) as (w & H & D). exists w. split; [|split; [exact H|exact (f_equal (hd None) D)] ].
  apply start_fresh; [reflexivity|reflexivity|exact one_open|exact one_header| |constructor]. cbn. unfold valid_unit. intuition lia.
Qed.
(** The contents of an area of two bytes at the start of the file write the fifth byte. *)
Theorem C23_outside_refuted : exists w', fresh one_file area_leaves (start one_file nothing) /\
  run everything false area_leaves (start one_file nothing) = ROk (true, w') /\ f_disk (w_fm w') 5%nat = Some [1; 0; 0; 0; 9].
Proof.
  destruct (outcome_run _ _ _ _ _ _ area_leaves_runs) as (w & H & D). exists w. split; [|split; [exact H|exact (f_equal (hd None) D)] ].
  apply start_fresh; [reflexivity|reflexivity|exact one_open|exact one_header| |constructor]. cbn. unfold valid_unit. intuition lia.
Qed.

(** ** C38: literal pools *)

(** The pool has the value of every waiting load at the address of its slot, within reach, and no other slots; none waits afterwards.
    That each load is written with the distance to its slot, and that no load is left over at the end, is part of C19. *)
Theorem C38_pool_partial : forall files writable own_big w e w' e',
  carried_out files writable own_big CPool w e w' e' ->
  exists values f h v, vpos (w_fm w) = Some (mkPos f h v) /\
    (forall l, In l (w_pool w) -> exists k, nth_error values k = Some (pe_value l) /\ w_slots e (pe_id l) = v + 4 * Z.of_nat k /\
       reaches (pe_thumb l) (literal_distance (pe_thumb l) (pe_pos l) (w_slots e (pe_id l)))) /\
    (forall k, (k < List.length values)%nat -> exists l, In l (w_pool w) /\ w_slots e (pe_id l) = v + 4 * Z.of_nat k) /\
    (exists p, emits files (unit_bytes (f_big (w_fm e)) (map (fun x => (4%nat, x)) values)) (pst_of w e) p /\ pst_of w' e' = pending p []) /\
    w_pool w' = [].
Proof.
  intros files writable own_big w e w' e' C. destruct (carried_place _ _ _ _ _ _ _ _ C) as [_ Pl]. exact (pool_result _ _ _ _ _ Pl).
Qed.
(** A case: an ARM load and a Thumb load of one value, and a load of another *)
Definition ex_loads : list pentry := [mkEntry 1 false 0x7FFFF00 5; mkEntry 2 true 0x7FFFF10 6; mkEntry 3 true 0x7FFFF12 5].
Definition ex_waiting : world := with_pool (placed false 0x8000004 nothing) ex_loads (fun _ => 0).
Definition ex_ready : world := match validate everything false 0 CPool (0x8000004, [5; 6]) ex_waiting with ROk (_, w, _) => w | _ => ex_waiting end.
Definition ex_written : world := with_pool (placed true 0x8000004 three) [] (w_slots ex_ready).
Example C38_ex : exists e', carried_out one_file everything false CPool ex_waiting ex_written ex_ready e' /\
  f_disk (w_fm e') 5%nat = Some [1; 2; 3; 0; 5; 0; 0; 0; 6; 0; 0; 0] /\ map (w_slots ex_written) [1; 2; 3]%nat = [0x8000004; 0x8000008; 0x8000004].
Proof.
  eexists. split.
  - constructor; [exact one_header|apply (placed_sync 0x8000004); lia|exact Logic.I| |reflexivity| |reflexivity].
    + repeat constructor; cbn; intuition discriminate.
    + exists 0, false, (0x8000004, [5; 6]), (0x8000004, [5; 6]). split; [exact Logic.I|]. split; [reflexivity|vm_compute; reflexivity].
  - split; vm_compute; reflexivity.
Qed.
(** Equal values share a slot in the first ten passes, *)
Theorem C38_sharing_partial : forall writable nofile passes a w a' w' b, passes < 10 ->
  validate writable nofile passes CPool a w = ROk (a', w', b) -> NoDup (snd a').
Proof. intros writable nofile passes a w a' w' b Hp H. exact (pool_sharing passes a w a' w' b Hp H). Qed.
(** and not later: the same two loads, once with few and once with many passes. *)
Theorem C38_sharing_refuted : exists w1 w2,
  fresh one_file (slow 3) (start one_file nothing) /\ run everything false (slow 3) (start one_file nothing) = ROk (true, w1) /\
  fresh one_file (slow 15) (start one_file nothing) /\ run everything false (slow 15) (start one_file nothing) = ROk (true, w2) /\
  f_disk (w_fm w1) 5%nat = Some [0x00; 0; 0x9F; 0xE5; 0x04; 0; 0x1F; 0xE5; 5; 0; 0; 0] /\
  f_disk (w_fm w2) 5%nat = Some [0x00; 0; 0x9F; 0xE5; 0x00; 0; 0x9F; 0xE5; 5; 0; 0; 0; 5; 0; 0; 0].
Proof.
  destruct (outcome_run _ _ _ _ _ _ fast_runs) as (w1 & H1 & D1). destruct (outcome_run _ _ _ _ _ _ slow_runs) as (w2 & H2 & D2). exists w1, w2.
  assert (F : forall n, objectless (slow n) = true -> well_formed one_file (slow n) -> NoDup (ids (slow n)) -> fresh one_file (slow n) (start one_file nothing)).
  { intros n B W N. apply start_fresh; [exact B|reflexivity|exact one_open|exact one_header|exact W|exact N]. }
  split; [apply F; [reflexivity|cbn; intuition lia|cbn; repeat constructor; cbn; intuition discriminate]|]. split; [exact H1|].
  split; [apply F; [reflexivity|cbn; intuition lia|cbn; repeat constructor; cbn; intuition discriminate]|]. split; [exact H2|]. split; [exact (f_equal (hd None) D1)|exact (f_equal (hd None) D2)].
Qed.

(** ** C70: what is in force at a place is what was said before it. *)

(** With an architecture and a table at the beginning all is determined. *)
Theorem C70_in_force_partial : forall files writable own_big k big t c w w',
  fresh files (CSeq (CArch k big) (CSeq (CTable t) c)) w ->
  run writable own_big (CSeq (CArch k big) (CSeq (CTable t) c)) w = ROk (true, w') ->
  exists P p', place files (w_labels w') P c (mkPst None big (f_disk (w_fm w)) t k no_delay []) p' /\ p_disk p' = f_disk (w_fm w') /\ p_pending p' = [].
Proof.
  intros files writable own_big k big t c w w' F H. exact (start_in_force _ _ _ _ _ _ _ _ (run_produces files writable own_big (fr_headers _ _ _ F) _ w w' F H)).
Qed.
(** Text before the table is encoded with the table loaded after it; *)
Theorem C70_table_refuted : exists w', run everything false text_first (started AMips) = ROk (true, w') /\ f_disk (w_fm w') 5%nat = Some [7] /\ w_table (started AMips) = 0%nat.
Proof.
  destruct (outcome_at_run _ _ _ _ _ text_first_runs) as (w & H & D). exists w. split; [exact H|]. split; [exact (f_equal (hd None) D)|reflexivity].
Qed.
(** a number before the first architecture is written in the byte order of the last one. *)
Theorem C70_order_refuted : exists w', run everything false half_first (started AMips) = ROk (true, w') /\ f_disk (w_fm w') 5%nat = Some [0x12; 0x34] /\
  f_big (w_fm (started AMips)) = false.
Proof.
  destruct (outcome_at_run _ _ _ _ _ half_first_runs) as (w & H & D). exists w. split; [exact H|]. split; [exact (f_equal (hd None) D)|reflexivity].
Qed.

Print Assumptions C19_layout_partial.
Print Assumptions C20_terminates.
Print Assumptions C20_passes.
Print Assumptions C20_passes_determined.
Print Assumptions C20_parse_error.
Print Assumptions C21_encode_follows.
Print Assumptions C22_align_partial.
Print Assumptions C22_align_refuted.
Print Assumptions C22_aligna.
Print Assumptions C22_fill.
Print Assumptions C22_skip.
Print Assumptions C23_area_partial.
Print Assumptions C23_end_refuted.
Print Assumptions C23_outside_refuted.
Print Assumptions C38_pool_partial.
Print Assumptions C38_sharing_partial.
Print Assumptions C38_sharing_refuted.
Print Assumptions C70_in_force_partial.
Print Assumptions C70_table_refuted.
Print Assumptions C70_order_refuted.
