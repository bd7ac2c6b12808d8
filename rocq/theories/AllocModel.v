(** Model of the bookkeeping of areas and regions: Core/Allocations.{h,cpp}.

    Positions and sizes are exact integers: the signed 64-bit sums of the program are taken not to
    overflow.  Maps are lists sorted by key; of the multimap of sub areas only the elements of one
    key are used, so its order is left open (newest first). *)

Require Import ZArith List Bool.
Import ListNotations.
Local Open Scope Z_scope.

(** Key, Allocations.h 50-59: file, then position; ordered lexicographically *)
Definition akey := (Z * Z)%type.
Definition akey_eqb (a b : akey) : bool := (fst a =? fst b) && (snd a =? snd b).
Definition akey_ltb (a b : akey) : bool := (fst a <? fst b) || ((fst a =? fst b) && (snd a <? snd b)).

(** Usage, 60-66, and SubArea, 68-72: offset and size *)
Record usage := mkUsage { u_space : Z; u_usage : Z; u_fill : bool; u_shared : bool }.

(** The static members, 82-87 *)
Record alloc := mkAlloc {
  a_areas : list (akey * usage); a_pools : list (akey * Z); a_subs : list (akey * (Z * Z));
  a_keep : bool; a_next : bool; a_kept : bool }.
(** Their initial values, Allocations.cpp 6-15 *)
Definition alloc_initial : alloc := mkAlloc [] [] [] false true false.

(** std::map: find, operator[] =, erase *)
Fixpoint map_find {A} (l : list (akey * A)) (k : akey) : option A :=
  match l with [] => None | (k', v) :: l => if akey_eqb k' k then Some v else map_find l k end.
Fixpoint map_set {A} (l : list (akey * A)) (k : akey) (v : A) : list (akey * A) :=
  match l with
  | [] => [(k, v)]
  | (k', v') :: r => if akey_eqb k' k then (k, v) :: r else if akey_ltb k k' then (k, v) :: l else (k', v') :: map_set r k v
  end.
Definition map_erase {A} (l : list (akey * A)) (k : akey) : list (akey * A) :=
  filter (fun e => negb (akey_eqb (fst e) k)) l.

Definition with_areas (s : alloc) a := mkAlloc a (a_pools s) (a_subs s) (a_keep s) (a_next s) (a_kept s).
Definition with_pools (s : alloc) p := mkAlloc (a_areas s) p (a_subs s) (a_keep s) (a_next s) (a_kept s).
Definition with_subs (s : alloc) x := mkAlloc (a_areas s) (a_pools s) x (a_keep s) (a_next s) (a_kept s).

(** clear, Allocations.cpp 17-23: pools and sub areas stay *)
Definition alloc_clear (s : alloc) : alloc := mkAlloc [] (a_pools s) (a_subs s) false true false.

(** setArea, 25-29 *)
Definition set_area (s : alloc) (file pos space used : Z) (fill shared : bool) : alloc :=
  with_areas s (map_set (a_areas s) (file, pos) (mkUsage space used fill shared)).

(** forgetArea, 31-39 *)
Definition forget_area (s : alloc) (file pos space : Z) : alloc :=
  let s := match map_find (a_areas s) (file, pos) with
           | Some u => if u_space u =? space then with_areas s (map_erase (a_areas s) (file, pos)) else s
           | None => s
           end in
  with_subs s (map_erase (a_subs s) (file, pos)).

(** setPool, 41-45; forgetPool, 47-53 *)
Definition set_pool (s : alloc) (file pos size : Z) : alloc := with_pools s (map_set (a_pools s) (file, pos) size).
Definition forget_pool (s : alloc) (file pos size : Z) : alloc :=
  match map_find (a_pools s) (file, pos) with
  | Some n => if n =? size then with_pools s (map_erase (a_pools s) (file, pos)) else s
  | None => s
  end.

(** getSubAreaUsage, 111-128.  The reads of allocations[key] insert an empty entry when there is
    none ([sub_area_touch]). *)
Definition max_extent (subs : list (akey * (Z * Z))) (k : akey) : Z :=
  fold_left (fun m e => if akey_eqb (fst e) k then Z.max (fst (snd e) + snd (snd e)) m else m) subs 0.
Definition area_usage (s : alloc) (k : akey) : Z :=
  match map_find (a_areas s) k with Some u => u_usage u | None => 0 end.
Definition sub_area_usage (s : alloc) (k : akey) : Z :=
  let m := max_extent (a_subs s) k in
  if m <=? area_usage s k then 0 else m - area_usage s k.
Definition sub_area_touch (s : alloc) (k : akey) : alloc :=
  match map_find (a_areas s) k with
  | Some _ => s
  | None => with_areas s (map_set (a_areas s) k (mkUsage 0 0 false false))
  end.

(** One round of the loop of allocateSubArea, 57-94: the new state and position if the block goes here.
    [position]: the position of the block in the previous pass, -1 if it has none. *)
Definition try_host (s : alloc) (file position minr maxr size : Z) (k : akey) (u : usage) : option (alloc * Z) :=
  if negb (fst k =? file) || negb (u_shared u) then None
  else if negb (minr =? -1) && (snd k + u_space u <? minr) then None
  else if negb (maxr =? -1) && (maxr <? snd k) then None
  else
    let actual := u_usage u + sub_area_usage s k in
    let possible := snd k + actual in
    if negb (minr =? -1) && (possible <? minr) then None
    else if negb (maxr =? -1) && (maxr <? possible) then None
    else
      let offset := position - snd k in
      let keep := a_keep s && negb (position =? -1) && (possible <? position) &&
                  (offset + size <=? u_space u) && negb (offset =? actual) in
      let size' := if keep then size + (offset - actual) else size in
      let possible' := if keep then position else possible in
      if actual + size' <=? u_space u then
        Some (mkAlloc (a_areas s) (a_pools s) ((k, (actual, size')) :: a_subs s) (a_keep s) (a_next s) (a_kept s || keep), possible')
      else None.
(** The loop runs over the entries in order.  A round that fails leaves no trace: the size is only
    changed when the block fits. *)
Fixpoint try_hosts (s : alloc) (file position minr maxr size : Z) (l : list (akey * usage)) : option (alloc * Z) :=
  match l with
  | [] => None
  | (k, u) :: l => match try_host s file position minr maxr size k u with
                   | Some r => Some r
                   | None => try_hosts s file position minr maxr size l
                   end
  end.
(** allocateSubArea, 55-98 *)
Definition allocate (s : alloc) (file position minr maxr size : Z) : alloc * option Z :=
  match try_hosts s file position minr maxr size (a_areas s) with
  | Some (s', p) => (s', Some p)
  | None => (mkAlloc (a_areas s) (a_pools s) (a_subs s) (a_keep s) false (a_kept s), None)
  end.

(** clearSubAreas, 100-106; canTrimSpace, 108-111 *)
Definition clear_sub_areas (s : alloc) : alloc := mkAlloc (a_areas s) (a_pools s) [] (a_next s) true false.
Definition can_trim (s : alloc) : bool := a_kept s.

(** validateOverlap, 130-160: the number of warnings *)
Record sweep := mkSweep { w_file : Z; w_pos : Z; w_end : Z; w_usage : Z; w_fill : bool; w_warnings : nat }.
Definition sweep_step (s : alloc) (w : sweep) (e : akey * usage) : sweep :=
  let k := fst e in let u := snd e in
  let next n := mkSweep (fst k) (snd k) (snd k + u_space u) (u_usage u + sub_area_usage s k) (u_fill u) n in
  if (fst k =? w_file w) && (w_pos w <? snd k) && (snd k <? w_end w) then
    let n := if snd k <? w_pos w + w_usage w then S (w_warnings w)
             else if u_fill u && w_fill w then S (w_warnings w) else w_warnings w in
    if snd k + u_space u <? w_end w then
      mkSweep (w_file w) (w_pos w) (w_end w) (snd k + u_usage u + sub_area_usage s k - w_pos w) (w_fill w) n
    else next n
  else next (w_warnings w).
Definition validate_overlap (s : alloc) : nat :=
  w_warnings (fold_left (sweep_step s) (a_areas s) (mkSweep (-1) (-1) (-1) 0 false 0)).
