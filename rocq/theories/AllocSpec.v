(** Passes over the blocks of a program, and what it means for placements to be sound. *)

Require Import ZArith List Bool.
From Verif Require Import AllocModel.
Import ListNotations.
Local Open Scope Z_scope.

(** A placed block: file, first address, size. *)
Record block := mkBlock { b_file : Z; b_start : Z; b_size : Z }.

(** The regions of a state: file, start, space, used by their own contents. *)
Definition region (s : alloc) (file pos space used : Z) : Prop :=
  exists fill, In ((file, pos), mkUsage space used fill true) (a_areas s).

(** The entries are in order, each key once (std::map). *)
Fixpoint ordered (l : list (akey * usage)) : Prop :=
  match l with
  | [] => True
  | (k, _) :: l => (forall k' u, In (k', u) l -> akey_ltb k k' = true) /\ ordered l
  end.

(** States the program can be in. *)
Inductive alloc_reached : alloc -> Prop :=
| ar_start : alloc_reached alloc_initial
| ar_clear : forall s, alloc_reached s -> alloc_reached (alloc_clear s)
| ar_set : forall s file pos space used fill shared, alloc_reached s -> alloc_reached (set_area s file pos space used fill shared)
| ar_forget : forall s file pos space, alloc_reached s -> alloc_reached (forget_area s file pos space)
| ar_pool : forall s file pos size, alloc_reached s -> alloc_reached (set_pool s file pos size)
| ar_no_pool : forall s file pos size, alloc_reached s -> alloc_reached (forget_pool s file pos size)
| ar_touch : forall s k, alloc_reached s -> alloc_reached (sub_area_touch s k)
| ar_subs : forall s, alloc_reached s -> alloc_reached (clear_sub_areas s)
| ar_place : forall s file position minr maxr size, alloc_reached s -> alloc_reached (fst (allocate s file position minr maxr size)).

(** A pass: regions are announced and blocks are placed in any order.  A region into which blocks
    have been placed is not changed or given up afterwards.  The latest block comes first. *)
Inductive pass : alloc -> list block -> Prop :=
| pass_start : forall s, alloc_reached s -> pass (clear_sub_areas s) []
| pass_set : forall s l file pos space used fill shared,
    pass s l ->
    (forall u b, map_find (a_areas s) (file, pos) = Some u -> In b l -> b_file b = file ->
                 pos <= b_start b <= pos + u_space u -> u_space u = space /\ u_usage u = used /\ u_shared u = shared) ->
    pass (set_area s file pos space used fill shared) l
| pass_forget : forall s l file pos space,
    pass s l ->
    (forall u b, map_find (a_areas s) (file, pos) = Some u -> In b l -> b_file b = file -> ~ pos <= b_start b <= pos + u_space u) ->
    pass (forget_area s file pos space) l
| pass_place : forall s l file position minr maxr size s' p,
    pass s l -> 0 <= size -> allocate s file position minr maxr size = (s', Some p) ->
    pass s' (mkBlock file p size :: l)
| pass_fail : forall s l file position minr maxr size s',
    pass s l -> allocate s file position minr maxr size = (s', None) -> pass s' l.

Definition apart (a b : block) : Prop :=
  b_file a <> b_file b \/ b_start a + b_size a <= b_start b \/ b_start b + b_size b <= b_start a.

(** Inside the free part of a region. *)
Definition housed (s : alloc) (b : block) : Prop :=
  exists pos space used, region s (b_file b) pos space used /\ pos + used <= b_start b /\ b_start b + b_size b <= pos + space.

(** Regions of a file do not overlap. *)
Definition regions_apart (s : alloc) : Prop :=
  forall file p1 s1 u1 p2 s2 u2, region s file p1 s1 u1 -> region s file p2 s2 u2 ->
  (p1 = p2 /\ s1 = s2 /\ u1 = u2) \/ p1 + s1 <= p2 \/ p2 + s2 <= p1.

(** Addresses that the contents of a region and the blocks in it take up. *)
Definition filled (s : alloc) (k : akey) (u : usage) (a : Z) : Prop := snd k <= a < snd k + u_usage u + sub_area_usage s k.

(** A block of a size fits at an address: in the free part of a region and apart from the blocks placed. *)
Definition fits (s : alloc) (l : list block) (b : block) : Prop := housed s b /\ Forall (apart b) l.
