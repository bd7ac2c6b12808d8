(** What a program should produce, said in one pass with the final label values known.

    There are no passes, no mutable members and no separation of validation and encoding.  The state
    is the open file with header size and address, the disk, and what later commands depend on. *)

Require Import ZArith List Bool.
From Verif Require Import Ints Res FileModel BytesSpec FileSpec AsmModel.
Import ListNotations.
Local Open Scope Z_scope.

(** Position: file object, header size, address *)
Record pos := mkPos { po_file : nat; po_header : Z; po_addr : Z }.
Record pst := mkPst {
  p_pos : option pos; p_big : bool; p_disk : disk; p_table : nat; p_arch : arch_kind; p_delay : dly;
  p_pending : list pentry }.

Definition at_pos p x := mkPst x (p_big p) (p_disk p) (p_table p) (p_arch p) (p_delay p) (p_pending p).
Definition on_disk p d := mkPst (p_pos p) (p_big p) d (p_table p) (p_arch p) (p_delay p) (p_pending p).
Definition delayed p x := mkPst (p_pos p) (p_big p) (p_disk p) (p_table p) (p_arch p) x (p_pending p).
Definition pending p x := mkPst (p_pos p) (p_big p) (p_disk p) (p_table p) (p_arch p) (p_delay p) x.

(** Without a file all are -1. *)
Definition sees (L : labels) (p : pst) : view :=
  match p_pos p with
  | None => mkView L (-1) (-1) (-1) None
  | Some x => mkView L (po_addr x) (po_addr x - po_header x) (po_header x) (Some (po_file x))
  end.

(** A new section ends load delays; an architecture is needed. *)
Definition new_section (p : pst) : pst :=
  match p_arch p with AMips => delayed p no_delay | _ => p end.
Definition has_arch (p : pst) : Prop := p_arch p <> AInvalid.

(** Going to an address: not before the start of the file. *)
Inductive goes (a : Z) : pst -> pst -> Prop :=
| goes_to : forall p f h v, p_pos p = Some (mkPos f h v) -> 0 <= a - h -> goes a p (at_pos p (Some (mkPos f h a))).
(** Moving on; addresses are 64-bit numbers. *)
Inductive moves (n : Z) : pst -> pst -> Prop :=
| moves_by : forall p p' f h v, p_pos p = Some (mkPos f h v) -> goes (s64 (v + n)) p p' -> moves n p p'.

(** The contents of a file after bytes were written at a place of it; a gap is zero. *)
Definition overwritten (old : list Z) (at_ : nat) (bytes new : list Z) : Prop :=
  (forall i, (at_ <= i < at_ + List.length bytes)%nat -> byte_at new i = nth (i - at_) bytes 0) /\
  (forall i, (i < at_ \/ at_ + List.length bytes <= i)%nat -> byte_at new i = byte_at old i) /\
  (bytes <> [] -> List.length new = Nat.max (List.length old) (at_ + List.length bytes)) /\
  (bytes = [] -> new = old).

Section Files.
  (** The file objects of the program: name, name to copy from, kind, header size *)
  Variable files : list gfile.

  (** Bytes go to the open file at the current place. *)
  Inductive emits (bytes : list Z) : pst -> pst -> Prop :=
  | emits_at : forall p f g h v d' new,
      p_pos p = Some (mkPos f h v) -> nth_error files f = Some g -> 0 <= v - h ->
      overwritten (match p_disk p (g_name g) with Some c => c | None => [] end) (Z.to_nat (v - h)) bytes new ->
      (match d' (g_name g) with Some c => c | None => [] end) = new ->
      (forall other, other <> g_name g -> d' other = p_disk p other) ->
      emits bytes p (on_disk (at_pos p (Some (mkPos f h (v + Z.of_nat (List.length bytes))))) d').

  (** Opening a file: it must exist, is emptied, or becomes a copy of another one. *)
  Inductive opens (f : nat) : pst -> pst -> Prop :=
  | opens_file : forall p g d',
      nth_error files f = Some g ->
      (match g_mode g with
       | MOpen => p_disk p (g_name g) <> None /\ forall n, d' n = p_disk p n
       | MCreate => d' (g_name g) = Some [] /\ forall n, n <> g_name g -> d' n = p_disk p n
       | MCopy => g_original g <> g_name g /\ p_disk p (g_original g) <> None /\
                  d' (g_name g) = p_disk p (g_original g) /\ forall n, n <> g_name g -> d' n = p_disk p n
       end) ->
      opens f p (on_disk (at_pos p (Some (mkPos f (g_header0 g) (g_header0 g)))) d').

  (** The bytes of units *)
  Definition unit_bytes (big : bool) (l : units) : list Z := flat_map (fun u => encode_bytes big (fst u) (snd u)) l.

  (** The distance from the place the processor counts from to a literal, and what a load can reach *)
  Definition literal_distance (thumb : bool) (from slot : Z) : Z :=
    s32 (slot - Z.land (from + (if thumb then 4 else 8)) 0xFFFFFFFD).
  Definition reaches (thumb : bool) (d : Z) : Prop := if thumb then 0 <= d <= 1020 else -4095 <= d <= 4095.

  (** The number of bytes left out to get to a multiple *)
  Definition gap (n x : Z) : Z := if Z.rem x n =? 0 then 0 else n - Z.rem x n.

  (** [L]: the labels; [P]: the address of the literal of each load. *)
  Variable L : labels.
  Variable P : nat -> Z.

  Definition holds (t : cond) (p : pst) (b : bool) : Prop :=
    match t with
    | CIf e => exists v, eval e (sees L p) = Some v /\ b = negb (v =? 0)
    | CIfdef l => b = l_def (L l)
    | CIfndef l => b = negb (l_def (L l))
    end.
  Definition given (e : option expr) (p : pst) (default v : Z) : Prop :=
    match e with None => v = default | Some e => eval e (sees L p) = Some v end.

  Inductive place : src -> pst -> pst -> Prop :=
  | pl_nop : forall p, place CNop p p
  | pl_seq : forall a b p1 p2 p3, place a p1 p2 -> place b p2 p3 -> place (CSeq a b) p1 p3
  (** A label is where it stands, *)
  | pl_label : forall l p,
      L l = mkLab true (v_virtual (sees L p)) (Some (v_physical (sees L p))) -> place (CLabel l None) p p
  (** or has the value it is given. *)
  | pl_value : forall l e v p,
      l_def (L l) = true -> l_val (L l) = v -> eval e (sees L p) = Some v -> place (CLabel l (Some e)) p p
  | pl_function : forall l c p p',
      L l = mkLab true (v_virtual (sees L p)) (Some (v_physical (sees L p))) -> place c p p' -> place (CFunction l c) p p'
  | pl_open : forall f p p', has_arch p -> opens f (new_section p) p' -> place (COpen f) p p'
  | pl_close : forall p, has_arch p -> place CClose p (at_pos (new_section p) None)
  | pl_org : forall e a p p', has_arch p -> eval e (sees L p) = Some a -> goes a (new_section p) p' -> place (COrg false e) p p'
  | pl_orga : forall e a f h v p p', has_arch p -> eval e (sees L p) = Some a -> p_pos p = Some (mkPos f h v) -> 0 <= a ->
      goes (a + h) (new_section p) p' -> place (COrg true e) p p'
  | pl_align : forall m e n fill b size p p', has_arch p ->
      eval e (sees L p) = Some n ->
      size = (match m with AlignVirtual => gap n (v_virtual (sees L p)) | AlignPhysical => gap n (v_physical (sees L p)) | Fill => n end) ->
      (m <> Fill -> exists k, 0 <= k /\ n = 2 ^ k) -> 0 <= size ->
      given fill p 0 b ->
      emits (repeat (u8 b) (Z.to_nat size)) (new_section p) p' -> place (CAlign m e fill) p p'
  | pl_skip : forall e n p p', has_arch p -> eval e (sees L p) = Some n -> moves n (new_section p) p' -> place (CSkip e) p p'
  | pl_header : forall e h' f h v p, eval e (sees L p) = Some h' -> p_pos p = Some (mkPos f h v) -> 0 <= v - h ->
      place (CHeader e) p (at_pos p (Some (mkPos f h' (v - h + h'))))
  | pl_incbin : forall content start size s n bytes p p', has_arch p ->
      given start p 0 s -> given size p (Z.of_nat (List.length content) - s) n ->
      Z.of_nat (List.length bytes) = Z.min n (Z.of_nat (List.length content) - s) ->
      (bytes = [] \/ exists skipped rest, Z.of_nat (List.length skipped) = s /\ content = skipped ++ bytes ++ rest) ->
      emits bytes (new_section p) p' -> place (CIncbin content start size) p p'
  | pl_data : forall unit f l p p', f (p_table p) (sees L p) = (l, false) ->
      emits (unit_bytes (p_big p) (map (fun v => (unit, v)) l)) p p' -> place (CData unit f) p p'
  | pl_table : forall t p, place (CTable t) p (mkPst (p_pos p) (p_big p) (p_disk p) t (p_arch p) (p_delay p) (p_pending p))
  | pl_arch : forall k b p, place (CArch k b) p (mkPst (p_pos p) b (p_disk p) (p_table p) k (p_delay p) (p_pending p))
  | pl_message : forall text p, text (sees L p) = true -> place (CMessage false text) p p
  | pl_then : forall t a b p p', holds t p true -> place a p p' -> place (CCond t a b) p p'
  | pl_else : forall t a b p p', holds t p false -> place b p p' -> place (CCond t a b) p p'
  | pl_macro : forall c p p', place c p p' -> place (CMacro c) p p'
  (** Contents within the size; with a fill byte the rest is filled, except for a part that belongs to
      blocks placed from elsewhere. *)
  | pl_area : forall (shared : bool) size fill position c start n p p1 p2 p' f h v,
      (match position with
       | Some e => has_arch p /\ eval e (sees L p) = Some start /\ goes start (new_section p) p1
       | None => p1 = p /\ start = v_virtual (sees L p)
       end) ->
      eval size (sees L p1) = Some n -> 0 <= n ->
      place c p1 p2 -> p_pos p2 = Some (mkPos f h v) -> v - start <= n ->
      (match fill with
       | Some e => exists b used p3, eval e (sees L p1) = Some b /\ 0 <= used <= n - (v - start) /\
                   (used = 0 /\ p3 = p2 \/ goes (v + used) p2 p3) /\ emits (repeat (u8 b) (Z.to_nat (n - (v - start) - used))) p3 p'
       | None => if shared then goes (start + n) p2 p' else p' = p2
       end) ->
      place (CArea shared size fill position c) p p'
  (** A block goes to some address; then output goes on where it was. *)
  | pl_auto : forall minr maxr c at_ f h v p p1 p2 p', has_arch p ->
      p_pos p = Some (mkPos f h v) -> goes at_ (new_section p) p1 -> place c p1 p2 -> goes v p2 p' -> place (CAuto minr maxr c) p p'
  | pl_instr : forall n i l d p p', i (sees L p) (p_delay p) = (ICode l, d) ->
      emits (unit_bytes (p_big p) l) (delayed p d) p' -> place (CInstr n i) p p'
  (** A load is short, or reads the word at its slot, which a later pool must provide. *)
  | pl_short : forall id (thumb : bool) e v short code x p p', eval e (sees L p) = Some v -> short (s32 v) = Some x ->
      emits (encode_bytes (p_big p) (if thumb then 2 else 4) x) p p' -> place (CLoad id thumb e short code) p p'
  | pl_load : forall id (thumb : bool) e v short code p p', eval e (sees L p) = Some v -> short (s32 v) = None ->
      emits (encode_bytes (p_big p) (if thumb then 2 else 4) (code (literal_distance thumb (v_virtual (sees L p)) (P id)))) p p' ->
      place (CLoad id thumb e short code) p (pending p' (p_pending p ++ [mkEntry id thumb (v_virtual (sees L p)) (s32 v)]))
  (** A pool has the values waited for and no others, each load reaches its slot, which holds its value. *)
  | pl_pool : forall values f h v p p', p_pos p = Some (mkPos f h v) ->
      (forall l, In l (p_pending p) -> exists k, nth_error values k = Some (pe_value l) /\ P (pe_id l) = v + 4 * Z.of_nat k /\
         reaches (pe_thumb l) (literal_distance (pe_thumb l) (pe_pos l) (P (pe_id l)))) ->
      (forall k, (k < List.length values)%nat -> exists l, In l (p_pending p) /\ P (pe_id l) = v + 4 * Z.of_nat k) ->
      emits (unit_bytes (p_big p) (map (fun x => (4%nat, x)) values)) p p' -> place CPool p (pending p' [])
  (** An object stands after the function that calls its constructors, relocated to where it is; its symbols have
      their places in it as values. *)
  | pl_object : forall ctor o r p p1 p2, place ctor p p1 ->
      o L (v_virtual (sees L p1)) = Some r -> ob_error r = false ->
      Forall (fun x => l_val (L (fst x)) = snd x) (ob_symbols r ++ ob_sections r) ->
      emits (ob_data r) p1 p2 -> place (CObj ctor o) p p2.
End Files.

(** All of a program, from one disk to another. *)
Definition produces (files : list gfile) (L : labels) (c : src) (before after : disk) : Prop :=
  exists P p p',
    p_pos p = None /\ p_disk p = before /\ p_pending p = [] /\ p_delay p = no_delay /\
    place files L P c p p' /\ p_disk p' = after /\ p_pending p' = [].

(** ** The programs and the states that are spoken of *)

(** Units have 1, 2, 4 or 8 bytes. *)
Definition valid_unit (n : nat) : Prop := (n = 1 \/ n = 2 \/ n = 4 \/ n = 8)%nat.
(** The loads with a literal *)
Fixpoint ids (c : src) : list nat :=
  match c with
  | CSeq a b | CCond _ a b => ids a ++ ids b
  | CFunction _ c | CMacro c | CArea _ _ _ _ c | CAuto _ _ c | CObj c _ => ids c
  | CLoad id _ _ _ _ => [id]
  | _ => []
  end.
(** The data of an object has the size it takes. *)
Definition solid (o : object) : Prop := forall L a r, o L a = Some r -> ob_error r = false -> ob_size r = Z.of_nat (List.length (ob_data r)).
(** None of its sections has constructors, for which labels would be made. *)
Definition plain (o : object) : Prop := forall L a r, o L a = Some r -> ob_sections r = [].
(** The labels for its sections: where a section is depends on the address alone, each label is for one section. *)
Definition sectioned (o : object) : Prop :=
  (forall L L' a r r', o L a = Some r -> o L' a = Some r' -> ob_sections r = ob_sections r') /\
  (forall L a r, o L a = Some r -> NoDup (map fst (ob_sections r))).
(** The function that calls the constructors ends with a table of as many values each time, which has a label. *)
Definition nowhere : view := mkView (fun _ => mkLab false 0 None) 0 0 0 None.
Definition table_size (unit : nat) (f : nat -> view -> list Z * bool) : Z := Z.of_nat (List.length (fst (f 0%nat nowhere)) * unit).
Definition fixed_size (f : nat -> view -> list Z * bool) : Prop := forall t v, List.length (fst (f t v)) = List.length (fst (f 0%nat nowhere)).
Inductive tabled : src -> Prop :=
| tabled_stub : forall l body t unit f, fixed_size f -> tabled (CFunction l (CSeq body (CSeq (CLabel t None) (CData unit f)))).
(** File numbers are in range, units have one of the sizes. *)
Fixpoint well_formed (files : list gfile) (c : src) : Prop :=
  match c with
  | CSeq a b | CCond _ a b => well_formed files a /\ well_formed files b
  | CFunction _ c | CMacro c | CArea _ _ _ _ c | CAuto _ _ c => well_formed files c
  | COpen i => (i < List.length files)%nat
  | CData u _ => valid_unit u
  | CInstr _ i => forall v d l d', i v d = (ICode l, d') -> Forall (fun u => valid_unit (fst u)) l
  | CObj c o => well_formed files c /\ solid o /\ (plain o \/ tabled c /\ sectioned o)
  | _ => True
  end.

(** The labels a command may give a value *)
Definition gives (o : object) (k : nat) : Prop := exists L a r v, o L a = Some r /\ In (k, v) (ob_symbols r ++ ob_sections r).
Fixpoint sets (c : src) (k : nat) : Prop :=
  match c with
  | CSeq a b | CCond _ a b => sets a k \/ sets b k
  | CLabel l _ => k = l
  | CFunction l c => k = l \/ sets c k
  | CMacro c | CArea _ _ _ _ c | CAuto _ _ c => sets c k
  | CObj c o => sets c k \/ gives o k
  | _ => False
  end.
(** The label of the table with the constructors, and the labels of the sections of an object: they have names of their own
    (getUniqueLabelName), so no other command gives them a value. *)
Definition table_label (c : src) (k : nat) : Prop :=
  match c with CFunction _ (CSeq _ (CSeq (CLabel t None) (CData _ _))) => k = t | _ => False end.
Definition of_section (o : object) (k : nat) : Prop := exists L a r v, o L a = Some r /\ In (k, v) (ob_sections r).
Fixpoint owns (c : src) (k : nat) : Prop :=
  match c with
  | CSeq a b | CCond _ a b => owns a k \/ owns b k
  | CFunction _ c | CMacro c | CArea _ _ _ _ c | CAuto _ _ c => owns c k
  | CObj c o => owns c k \/ (exists j, of_section o j) /\ table_label c k \/ of_section o k
  | _ => False
  end.
Definition clear_of (a b : src) : Prop := forall k, owns a k -> ~ sets b k.
Fixpoint apart (c : src) : Prop :=
  match c with
  | CSeq a b | CCond _ a b => (apart a /\ apart b) /\ clear_of a b /\ clear_of b a
  | CFunction l c => apart c /\ ~ owns c l
  | CMacro c | CArea _ _ _ _ c | CAuto _ _ c => apart c
  | CObj c o => apart c /\ (forall k, owns c k \/ (exists j, of_section o j) /\ table_label c k -> ~ gives o k)
  | _ => True
  end.

(** What does not change in a file object *)
Record static (g g0 : gfile) : Prop := mkStatic {
  st_name : g_name g = g_name g0; st_original : g_original g = g_original g0; st_mode : g_mode g = g_mode g0;
  st_header0 : g_header0 g = g_header0 g0 }.
(** The objects are those of the program. *)
Definition objects (files : list gfile) (m : fmgr) : Prop := Forall2 static (f_files m) files.
(** Nothing is open (while validating). *)
Definition quiet (m : fmgr) : Prop := Forall (fun g => g_open g = false) (f_files m).
Definition files_ok (files : list gfile) (m : fmgr) : Prop := objects files m /\ quiet m.

(** The open file while validating and while encoding: same header size and address; the stream is at the file address *)
Record level (g ge : gfile) : Prop := mkLevel {
  lv_header : g_header ge = g_header g; lv_virtual : g_virtual ge = g_virtual g; lv_open : g_open ge = true; lv_fail : g_fail ge = false;
  lv_pos : g_pos ge = g_virtual g - g_header g; lv_phys : 0 <= g_virtual g - g_header g; lv_range : is_int64 (g_virtual g) }.

(** Validation has nothing open; encoding has at most the file open that validation is in, at the same place. *)
Record sync (files : list gfile) (mv me : fmgr) : Prop := mkSync {
  sy_ok : files_ok files mv;
  sy_objects : objects files me;
  sy_closed : forall j g, nth_error (f_files me) j = Some g -> f_active me <> Some j -> g_open g = false;
  sy_exists : forall n, f_disk mv n <> None -> f_disk me n <> None;
  sy_pos : match active mv with
           | None => forall j g, active me = Some (j, g) -> g_open g = false
           | Some (i, g) => exists ge, active me = Some (i, ge) /\ level g ge
           end }.

(** After a pass the labels of the sections of an object are where they are behind the table with the constructors; so they
    still are if the table has not moved. *)
Definition table_end (c : src) : ann c -> option (nat * Z) :=
  match c return ann c -> option (nat * Z) with
  | CFunction _ (CSeq _ (CSeq (CLabel t None) (CData u f))) => fun a => if (fst (snd (snd a)) : bool) then Some (t, table_size u f) else None
  | _ => fun _ => None
  end.
Definition landed (L : labels) (o : object) (e : option (nat * Z)) : Prop :=
  match e with
  | None => True
  | Some (t, n) =>
      forall v p, l_val (L t) = v -> l_phys (L t) = Some p -> 0 <= p -> 0 <= s64 (v + n) - (v - p) ->
      forall L' r, o L' (s64 (v + n)) = Some r -> Forall (fun x => l_val (L (fst x)) = snd x) (ob_sections r)
  end.
(** A label that a command has defined is defined. *)
Fixpoint flags (L : labels) (c : src) : ann c -> Prop :=
  match c return ann c -> Prop with
  | CSeq a b => fun x => flags L a (fst x) /\ flags L b (snd x)
  | CLabel l _ => fun x => x = true -> l_def (L l) = true
  | CFunction l c => fun x => (fst x = true -> l_def (L l) = true) /\ flags L c (snd x)
  | CCond _ a b => fun x => flags L a (fst (snd x)) /\ flags L b (snd (snd x))
  | CMacro c => fun x => flags L c x
  | CArea _ _ _ _ c => fun x => flags L c (snd x)
  | CAuto _ _ c => fun x => flags L c (snd x)
  | CObj c o => fun x => flags L c (fst x) /\ landed L o (table_end c (fst x))
  | _ => fun _ => True
  end.
(** The loads waiting for a pool *)
Definition pids (w : world) : list nat := map pe_id (w_pool w).

(** The state that a state while validating and one while encoding stand for *)
Definition vpos (m : fmgr) : option pos :=
  match active m with Some (i, g) => Some (mkPos i (g_header g) (g_virtual g)) | None => None end.
Definition pst_of (w e : world) : pst :=
  mkPst (vpos (w_fm w)) (f_big (w_fm e)) (f_disk (w_fm e)) (w_table w) (w_arch w) (w_delay w) (w_pool w).

(** The state a program is run in: the files of the program, none of them open *)
Record fresh (files : list gfile) (c : src) (w : world) : Prop := mkFresh {
  fr_files : f_files (w_fm w) = files; fr_closed : quiet (w_fm w); fr_defs : w_delay w = no_delay;
  fr_headers : Forall (fun g => is_int64 (g_header0 g)) files;
  fr_wf : well_formed files c; fr_loads : NoDup (ids c); fr_apart : apart c }.

(** Validation passes: [n] of them, the first with number 0, each but the last asking for another one;
    [again]: the answer of the last. *)
Inductive rounds (writable : nat -> bool) (c : src) (a : ann c) (w : world) : nat -> ann c -> world -> bool -> Prop :=
| rounds_none : rounds writable c a w 0 a w true
| rounds_more : forall n a1 w1 a2 w2 again, rounds writable c a w n a1 w1 true ->
    validate writable false (Z.of_nat n) c a1 (start_pass (clear_queued w1)) = ROk (a2, w2, again) ->
    rounds writable c a w (S n) a2 (revalidate w2) again.

(** The least multiple not below *)
Definition least_multiple (n x y : Z) : Prop := x <= y /\ (exists q, y = q * n) /\ forall q, x <= q * n -> y <= q * n.

(** A command is validated at [w], giving [w'], with no change and no error, and then encoded at [e], giving [e'];
    both start at the same place. *)
Record carried_out (files : list gfile) (writable : nat -> bool) (own_big : bool) (c : src) (w e w' e' : world) : Prop := mkCarried {
  ca_headers : Forall (fun g => is_int64 (g_header0 g)) files;
  ca_sync : sync files (w_fm w) (w_fm e);
  ca_wf : well_formed files c;
  ca_loads : NoDup (pids w ++ ids c);
  ca_slots : w_slots e = w_slots w';
  ca_steps : exists passes nofile a a', flags (w_labels w) c a /\ validate writable nofile passes c a w = ROk (a', w', false) /\
    encode writable own_big c a' e = ROk e';
  ca_error : has_error w' = false }.
