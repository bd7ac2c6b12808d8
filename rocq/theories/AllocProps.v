(** Property theorems: C24, C25 (automatically placed blocks), C60 (overlap warnings), C61 (no room). *)

Require Import ZArith List Bool Lia.
From Verif Require Import AllocModel AllocSpec AllocProofs.
Import ListNotations.
Local Open Scope Z_scope.

(** Missing: passes in which a region changes after a block has been placed in it. *)
Theorem C24_inside_partial : forall s l b, pass s l -> In b l -> housed s b.
Proof. exact pass_housed. Qed.
(** Missing: the same, and regions that overlap. *)
Theorem C24_disjoint_partial : forall s l, pass s l -> regions_apart s -> ForallOrdPairs apart l.
Proof. exact pass_apart. Qed.

(** A pass in which the host grows after the block was placed: the block is in its contents. *)
Theorem C24_growing_region_refuted : exists s1 s2 s3,
  alloc_reached s1 /\ allocate s1 7 (-1) (-1) (-1) 8 = (s2, Some 0x110) /\
  s3 = set_area s2 7 0x100 0x100 0x14 false true /\ ~ housed s3 (mkBlock 7 0x110 8).
Proof.
  exists (clear_sub_areas (set_area alloc_initial 7 0x100 0x100 0x10 false true)). eexists. eexists.
  split; [apply ar_subs, ar_set, ar_start|]. split; [vm_compute; reflexivity|]. split; [reflexivity|].
  intros (pos & space & used & (fill & [E|[]]) & H1 & H2). injection E as <- <- <- <-. cbn in *. lia.
Qed.
(** Overlapping regions: two blocks on the same addresses. *)
Theorem C24_overlapping_regions_refuted : exists s a b, pass s [a; b] /\ ~ apart a b.
Proof.
  assert (P0 : pass (set_area (set_area (clear_sub_areas alloc_initial) 7 0x100 0x20 0 false true) 7 0x110 0x20 0 false true) []).
  { apply pass_set; [apply pass_set; [apply pass_start; apply ar_start|]|]; intros u b _ []. }
  eexists. exists (mkBlock 7 0x110 0x10), (mkBlock 7 0x100 0x20). split.
  - eapply pass_place with (position := -1) (minr := -1) (maxr := -1); [eapply pass_place with (position := -1) (minr := -1) (maxr := -1); [exact P0|lia|]|lia|]; vm_compute; reflexivity.
  - unfold apart. cbn. lia.
Qed.

(** The lower bound always holds; the upper bound holds unless the block keeps the position it had. *)
Theorem C25_range_partial : forall s file position minr maxr size s' p,
  alloc_reached s -> allocate s file position minr maxr size = (s', Some p) ->
  (minr <> -1 -> minr <= p) /\ (maxr <> -1 -> p <= maxr \/ (a_keep s = true /\ p = position)).
Proof. intros s file position minr maxr size s' p R. apply allocate_range. apply reached_ordered. exact R. Qed.
(** In the second pass the position of a block is the address where the directive stands; if that is
    in a region, the block stays there, whatever its range.  Region 0x100 to 0x1100, directive at 0x500,
    range 0x100 to 0x200. *)
Theorem C25_kept_position_refuted :
  let first_pass := set_area (clear_sub_areas alloc_initial) 7 0x100 0x1000 0 false true in
  let second_pass := set_area (clear_sub_areas first_pass) 7 0x100 0x1000 0 false true in
  alloc_reached second_pass /\ snd (allocate second_pass 7 0x500 0x100 0x200 1) = Some 0x500.
Proof. cbv zeta. split; [apply ar_set, ar_subs, ar_set, ar_subs, ar_start|vm_compute; reflexivity]. Qed.

(** If two areas of a file both fill an address, there is a warning; areas are within their sizes. *)
Theorem C60_overlap_partial : forall s, alloc_reached s ->
  (forall k u, In (k, u) (a_areas s) -> 0 <= u_usage u + sub_area_usage s k <= u_space u) ->
  forall k1 u1 k2 u2 a, In (k1, u1) (a_areas s) -> In (k2, u2) (a_areas s) -> k1 <> k2 -> fst k1 = fst k2 ->
  filled s k1 u1 a -> filled s k2 u2 a -> (0 < validate_overlap s)%nat.
Proof. intros s R. apply overlap_reported. apply reached_ordered. exact R. Qed.
(** Two areas that start at the same address: the first is forgotten, no warning. *)
Theorem C60_same_start_refuted : exists s, alloc_reached s /\
  s = set_area (set_area alloc_initial 7 0x100 0x10 8 false false) 7 0x100 0x20 8 false false /\ validate_overlap s = 0%nat.
Proof. eexists. split; [|split; [reflexivity|vm_compute; reflexivity]]. apply ar_set, ar_set, ar_start. Qed.

(** When no place is found, the first free address of every region is out of range or too close to its end. *)
Theorem C61_no_room_partial : forall s l file position minr maxr size s',
  pass s l -> 0 <= size -> allocate s file position minr maxr size = (s', None) ->
  forall pos space used, region s file pos space used -> 0 <= used ->
  let first := Z.max used (max_extent (a_subs s) (file, pos)) in
  (minr <> -1 /\ pos + first < minr) \/ (maxr <> -1 /\ maxr < pos + first) \/ space < first + size.
Proof. exact allocate_fails. Qed.
(** But a region may have room in the range behind its first free address. *)
Theorem C61_room_not_found_refuted : exists s s' b,
  pass s [] /\ fits s [] b /\ b_file b = 7 /\ 0x180 <= b_start b <= 0x1F0 /\ b_size b = 4 /\
  allocate s 7 (-1) 0x180 0x1F0 4 = (s', None).
Proof.
  exists (set_area (clear_sub_areas alloc_initial) 7 0x100 0x100 0 false true). eexists. exists (mkBlock 7 0x180 4).
  split; [apply pass_set; [apply pass_start; apply ar_start|intros u b _ []]|]. split; [|cbn; repeat split; lia || reflexivity].
  split; [|constructor]. exists 0x100, 0x100, 0. split; [exists false; left; reflexivity|cbn; lia].
Qed.

(** Cases *)
Definition ex_regions : alloc :=
  set_area (set_area (clear_sub_areas alloc_initial) 7 0x300 0x40 0 false true) 7 0x100 0x20 0x10 false true.
Lemma ex_regions_pass : pass ex_regions [].
Proof. apply pass_set; [apply pass_set; [apply pass_start; apply ar_start|]|]; intros u b _ []. Qed.
Example C24_ex : exists s, pass s [mkBlock 7 0x308 4; mkBlock 7 0x118 8; mkBlock 7 0x300 8; mkBlock 7 0x110 8] /\ regions_apart s.
Proof.
  eexists. split.
  - eapply pass_place with (position := -1) (minr := -1) (maxr := -1); [
      eapply pass_place with (position := -1) (minr := -1) (maxr := -1); [
        eapply pass_place with (position := -1) (minr := 0x200) (maxr := -1); [
          eapply pass_place with (position := -1) (minr := -1) (maxr := -1); [exact ex_regions_pass|lia|]|lia|]|lia|]|lia|]; vm_compute; reflexivity.
  - intros file p1 s1 u1 p2 s2 u2 (f1 & H1) (f2 & H2). cbn in H1, H2.
    destruct H1 as [H1|[H1|[]]], H2 as [H2|[H2|[]]]; inversion H1; inversion H2; subst; lia.
Qed.
Example C25_ex : alloc_reached ex_regions /\ snd (allocate ex_regions 7 (-1) 0x110 0x120 8) = Some 0x110 /\
  snd (allocate ex_regions 7 (-1) 0x200 0x310 8) = Some 0x300.
Proof. split; [apply ar_set, ar_set, ar_subs, ar_start|]. vm_compute. auto. Qed.
Example C60_ex :
  let s := set_area (set_area (set_area alloc_initial 7 0x100 0x100 0x10 true false) 7 0x110 0x10 8 false false) 7 0x114 0x20 4 false false in
  alloc_reached s /\ forallb (fun e => (u_usage (snd e) + sub_area_usage s (fst e) <=? u_space (snd e)) && (0 <=? u_usage (snd e))) (a_areas s) = true /\
  filled s (7, 0x110) (mkUsage 0x10 8 false false) 0x115 /\ filled s (7, 0x114) (mkUsage 0x20 4 false false) 0x115 /\ validate_overlap s = 1%nat.
Proof. cbv zeta. split; [apply ar_set, ar_set, ar_set, ar_start|]. vm_compute. repeat split; congruence. Qed.
Example C61_ex : snd (allocate ex_regions 7 (-1) (-1) (-1) 0x41) = None /\ region ex_regions 7 0x300 0x40 0.
Proof. split; [vm_compute; reflexivity|]. exists false. right. left. reflexivity. Qed.

Print Assumptions C24_inside_partial.
Print Assumptions C24_disjoint_partial.
Print Assumptions C24_growing_region_refuted.
Print Assumptions C24_overlapping_regions_refuted.
Print Assumptions C25_range_partial.
Print Assumptions C25_kept_position_refuted.
Print Assumptions C60_overlap_partial.
Print Assumptions C60_same_start_refuted.
Print Assumptions C61_no_room_partial.
Print Assumptions C61_room_not_found_refuted.
