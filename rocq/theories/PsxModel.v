(** Importing PlayStation object files and libraries.

    Files: Archs/MIPS/PsxRelocator.cpp (loadPsxLibrary 23-70, loadString 72-83, parseObject 85-324, init 326-391,
    relocateFile 393-533, relocate 535-556, Validate and Encode 580-592), Archs/MIPS/PsxRelocator.h 14-57, Util/ByteArray.h 39-66.

    Simplified: a file is the list of its bytes, a name the list of its characters.  The names of segments, the
    file positions of relocations and the records that are skipped are not kept.  Labels are a partial map from names in
    lower case to values; a label that exists but has no value yet is not in it.  Whether a name can be a label is a
    parameter.  Of the messages only whether there is one is kept.  The check sum of the output is in [AsmModel].
    [RUb]: an access behind the end of the bytes, a segment that does not exist, or an overflow of an int.  [RErr]: a loop
    that does not end. *)

Require Import ZArith Bool List.
Require Import Verif.Ints Verif.Res Verif.ElfModel.
Import ListNotations.
Local Open Scope Z_scope.

(** ** Bytes *)

Definition size (d : list Z) : Z := Z.of_nat (List.length d).
(** operator[]: ByteArray.h 100-108. *)
Definition get (d : list Z) (pos : Z) : res Z :=
  if pos <? 0 then RUb else match nth_error d (Z.to_nat pos) with Some b => ROk b | None => RUb end.
(** getWord: ByteArray.h 39-50, little endian. *)
Definition get16 (d : list Z) (pos : Z) : Z :=
  if pos + 1 >=? size d then -1
  else nth (Z.to_nat pos) d 0 + nth (Z.to_nat (pos + 1)) d 0 * 256.
(** getDoubleWord: ByteArray.h 52-63, little endian; an int. *)
Definition get32 (d : list Z) (pos : Z) : Z :=
  if pos + 3 >=? size d then -1
  else s32 (nth (Z.to_nat pos) d 0 + nth (Z.to_nat (pos + 1)) d 0 * 256
            + nth (Z.to_nat (pos + 2)) d 0 * 65536 + nth (Z.to_nat (pos + 3)) d 0 * 16777216).
(** mid: ByteArray.cpp 125-138; a length below 0 means up to the end. *)
Definition mid (d : list Z) (start len : Z) : res (list Z) :=
  if start >=? size d then ROk []
  else let len := if len <? 0 then size d - start else len in
       if size d <? start + len then RUb else ROk (firstn (Z.to_nat len) (skipn (Z.to_nat start) d)).
(** memcmp of the first bytes (PsxRelocator.cpp 31, 40, 87): as memory comparisons go on behind the end of the
    bytes only when all of them agree, a file that is a proper prefix of the expected bytes is read too far. *)
Fixpoint starts_with (d expected : list Z) : res bool :=
  match expected, d with
  | [], _ => ROk true
  | _ :: _, [] => RUb
  | e :: expected, b :: d => if b =? e then starts_with d expected else ROk false
  end.

(** psxObjectFileMagicNum: PsxRelocator.cpp 21; the mark of libraries: 40. *)
Definition object_magic : list Z := [76; 78; 75; 2; 46; 7].
Definition library_magic : list Z := [76; 73; 66; 1].

(** ** Libraries *)

(** PsxRelocator.cpp 48-51: the name of a member, up to a space. *)
Fixpoint entry_name (n : nat) (d : list Z) (pos : Z) : res (list Z) :=
  match n with
  | O => ROk []
  | S n => do b <- get d pos;
           if b =? 32 then ROk [] else do r <- entry_name n d (pos + 1); ROk (b :: r)
  end.
(** PsxRelocator.cpp 56-61: the names of the symbols of the member are skipped. *)
Fixpoint skip_names (fuel : nat) (d : list Z) (pos skip : Z) : res Z :=
  match fuel with
  | O => RErr
  | S fuel => do b <- get d (pos + skip);
              if b =? 0 then ROk (skip + 1) else skip_names fuel d pos (skip + 1 + b)
  end.
(** PsxRelocator.cpp 43-67: the members.  A member of size 0 is read again and again; with a negative size the
    position, which is a size_t, may wrap around, which is left out. *)
Fixpoint members (fuel : nat) (d : list Z) (pos : Z) : res (list (list Z * list Z)) :=
  if pos >=? size d then ROk []
  else match fuel with
       | O => RErr
       | S fuel =>
         do name <- entry_name 16 d pos;
         let len := get32 d (pos + 16) in
         do skip <- skip_names (S (List.length d)) d pos 20;
         do data <- mid d (pos + skip) (len - skip);
         do r <- members fuel d (pos + len);
         ROk ((name, data) :: r)
       end.
(** loadPsxLibrary: PsxRelocator.cpp 23-70. *)
Definition loadPsxLibrary (name d : list Z) : res (list (list Z * list Z)) :=
  match d with
  | [] => ROk []
  | _ => do object <- starts_with d object_magic;
         if object then ROk [(name, d)]
         else do library <- starts_with d library_magic;
              if library then members (S (List.length d)) d 4 else ROk []
  end.

(** ** Objects *)

(** PsxRelocator.h 14-15; the order of the constructors is the order of the values. *)
Inductive rtype := WordLiteral | UpperImmediate | LowerImmediate | FunctionCall.
Inductive rref := SymblId | SegmentOffset.
(** PsxRelocation: PsxRelocator.h 17-26. *)
Record prel := mkPrel { pr_type : rtype; pr_ref : rref; pr_offset : Z; pr_id : Z; pr_pos : Z; pr_relative : Z }.
(** PsxSegment: PsxRelocator.h 28-34. *)
Record pseg := mkPseg { sg_id : Z; sg_data : list Z; sg_rels : list prel }.
(** PsxSymbolType and PsxSymbol: PsxRelocator.h 37-49, each kind with the fields it uses. *)
Inductive pkind :=
| Internal (segment offset : Z)
| InternalID (id segment offset : Z)
| External (id : Z)
| BSS (id space : Z)
| Function_ (segment offset : Z).
Record psym := mkPsym { ps_kind : pkind; ps_name : list Z }.
(** PsxRelocatorFile: PsxRelocator.h 51-56. *)
Record pfile := mkPfile { pf_segments : list pseg; pf_symbols : list psym }.

(** loadString: PsxRelocator.cpp 72-83; the characters, and the size with the length. *)
Fixpoint get_bytes (n : nat) (d : list Z) (pos : Z) : res (list Z) :=
  match n with
  | O => ROk []
  | S n => do b <- get d pos; do r <- get_bytes n d (pos + 1); ROk (b :: r)
  end.
Definition loadString (d : list Z) (pos : Z) : res (list Z * Z) :=
  do len <- get d pos; do s <- get_bytes (Z.to_nat len) d (pos + 1); ROk (s, len + 1).

(** PsxRelocator.cpp 127-135: the first segment with an id. *)
Fixpoint find_segment (segs : list pseg) (id : Z) : option nat :=
  match segs with
  | [] => None
  | s :: segs => if sg_id s =? id then Some O else option_map S (find_segment segs id)
  end.
(** Changing the active segment (PsxRelocator.cpp 148-149, 159, 249); there is none before the first selection. *)
Fixpoint change_segment (segs : list pseg) (n : nat) (f : pseg -> pseg) : list pseg :=
  match segs, n with
  | [], _ => []
  | s :: segs, O => f s :: segs
  | s :: segs, S n => s :: change_segment segs n f
  end.
Definition add_data (x : list Z) (s : pseg) : pseg := mkPseg (sg_id s) (sg_data s ++ x) (sg_rels s).
Definition add_rel (r : prel) (s : pseg) : pseg := mkPseg (sg_id s) (sg_data s) (sg_rels s ++ [r]).

(** Negation of an int. *)
Definition neg_int (v : Z) : res Z := if v =? -2147483648 then RUb else ROk (- v).

(** PsxRelocator.cpp 198-247: what a relocation refers to; the relocation and the position behind.
    No value: the file is refused. *)
Fixpoint reference (fuel : nat) (d : list Z) (type : rtype) (offset relative pos : Z) : res (option (prel * Z)) :=
  match fuel with
  | O => RErr
  | S fuel =>
    do other <- get d pos;
    let pos := pos + 1 in
    if other =? 0x02 then ROk (Some (mkPrel type SymblId offset (get16 d pos) 0 relative, pos + 2))
    else if other =? 0x2C then
      do sub <- get d pos;
      let pos := pos + 1 in
      if sub =? 0x00 then reference fuel d type offset (get32 d pos) (pos + 4)
      else if sub =? 0x04 then
        let id := get16 d pos in
        do zero <- get d (pos + 2);
        if zero =? 0 then ROk (Some (mkPrel type SegmentOffset offset id (get32 d (pos + 3)) relative, pos + 7))
        else ROk None
      else ROk None
    else if other =? 0x2E then
      do sub <- get d pos;
      let pos := pos + 1 in
      if sub =? 0x00 then do v <- neg_int (get32 d pos); reference fuel d type offset v (pos + 4)
      else ROk None
    else ROk None
  end.

(** PsxRelocator.cpp 171-195: the kinds of relocations. *)
Definition relocation_type (t : Z) : option rtype :=
  if t =? 0x10 then Some WordLiteral else if t =? 0x4A then Some FunctionCall
  else if t =? 0x52 then Some UpperImmediate else if t =? 0x54 then Some LowerImmediate else None.

(** The variables of parseObject: PsxRelocator.cpp 90-96. *)
Record pstate := mkPst { st_segments : list pseg; st_symbols : list psym; st_active : option nat; st_part : Z; st_pos : Z }.
Definition move (st : pstate) (n : Z) : pstate := mkPst (st_segments st) (st_symbols st) (st_active st) (st_part st) (st_pos st + n).
Definition with_segments (st : pstate) (segs : list pseg) : pstate := mkPst segs (st_symbols st) (st_active st) (st_part st) (st_pos st).
(** PsxRelocator.cpp 252-302: a symbol whose name begins at a distance. *)
Definition symbol (d : list Z) (st : pstate) (k : pkind) (at_ : Z) : res (option pstate) :=
  do x <- loadString d (st_pos st + at_);
  ROk (Some (mkPst (st_segments st) (st_symbols st ++ [mkPsym k (fst x)]) (st_active st) (st_part st) (st_pos st + at_ + snd x))).

(** PsxRelocator.cpp 99-320: one record.  No value: the file is refused.  With the mark of the end of the file
    as a size, [mid] is empty, and appending zeroes fails. *)
Definition step (d : list Z) (st : pstate) : res (option pstate) :=
  let pos := st_pos st in
  do tag <- get d pos;
  if tag =? 0x10 then
    let id := get32 d (pos + 1) in
    do eight <- get d (pos + 5);
    if eight =? 8 then
      do x <- loadString d (pos + 6);
      ROk (Some (move (with_segments st (st_segments st ++ [mkPseg id [] []])) (6 + snd x)))
    else ROk None
  else if tag =? 0x14 then do n <- get d (pos + 4); ROk (Some (move st (n + 5)))
  else if tag =? 0x1C then do n <- get d (pos + 3); ROk (Some (move st (n + 4)))
  else if tag =? 0x06 then
    ROk (Some (mkPst (st_segments st) (st_symbols st) (find_segment (st_segments st) (get16 d (pos + 1))) (st_part st) (pos + 3)))
  else if tag =? 0x02 then
    let len := get16 d (pos + 1) in
    do x <- mid d (pos + 3) len;
    match st_active st with
    | None => RUb
    | Some n =>
      let part := match nth_error (st_segments st) n with Some s => size (sg_data s) | None => 0 end in
      ROk (Some (mkPst (change_segment (st_segments st) n (add_data x)) (st_symbols st) (st_active st) part (pos + 3 + len)))
    end
  else if tag =? 0x08 then
    let len := get16 d (pos + 1) in
    match st_active st with
    | None => RUb
    | Some n => if len <? 0 then RUb
                else ROk (Some (move (with_segments st (change_segment (st_segments st) n (add_data (repeat 0 (Z.to_nat len))))) 3))
    end
  else if tag =? 0x0A then
    do t <- get d (pos + 1);
    match relocation_type t with
    | None => ROk None
    | Some type =>
      do r <- reference (S (List.length d)) d type (get16 d (pos + 2) + st_part st) 0 (pos + 4);
      match r with
      | None => ROk None
      | Some (rel, next) =>
        match st_active st with
        | None => RUb
        | Some n => ROk (Some (mkPst (change_segment (st_segments st) n (add_rel rel)) (st_symbols st) (st_active st) (st_part st) next))
        end
      end
    end
  else if tag =? 0x12 then symbol d st (Internal (get16 d (pos + 1)) (get32 d (pos + 3))) 7
  else if tag =? 0x0E then symbol d st (External (get16 d (pos + 1))) 3
  else if tag =? 0x30 then symbol d st (BSS (get16 d (pos + 1)) (get32 d (pos + 5))) 9
  else if tag =? 0x0C then symbol d st (InternalID (get16 d (pos + 1)) (get16 d (pos + 3)) (get32 d (pos + 5))) 9
  else if tag =? 0x4A then symbol d st (Function_ (get16 d (pos + 1)) (get32 d (pos + 3))) 29
  else if tag =? 0x4C then ROk (Some (move st 11))
  else if tag =? 0x3C then ROk (Some (move st 3))
  else if tag =? 0x00 then ROk (Some (move st 1))
  else if tag =? 0x32 then ROk (Some (move st 3))
  else if tag =? 0x3A then ROk (Some (move st 9))
  else ROk None.

(** PsxRelocator.cpp 97-321: the loop over the records. *)
Fixpoint parse_loop (fuel : nat) (d : list Z) (st : pstate) : res (option pfile) :=
  if st_pos st >=? size d then ROk (Some (mkPfile (st_segments st) (st_symbols st)))
  else match fuel with
       | O => RErr
       | S fuel => do x <- step d st;
                   match x with None => ROk None | Some st => parse_loop fuel d st end
       end.
(** parseObject: PsxRelocator.cpp 85-324. *)
Definition parseObject (d : list Z) : res (option pfile) :=
  do magic <- starts_with d object_magic;
  if magic then parse_loop (S (List.length d)) d (mkPst [] [] None (-1) 6) else ROk None.

(** ** Preparation *)

(** PsxRelocator.cpp 347-360: the order of the relocations of a segment, std::tie of the four fields. *)
Definition rref_rank (r : rref) : Z := match r with SymblId => 0 | SegmentOffset => 1 end.
Definition rtype_rank (t : rtype) : Z :=
  match t with WordLiteral => 0 | UpperImmediate => 1 | LowerImmediate => 2 | FunctionCall => 3 end.
Definition tie (r : prel) : list Z := [rref_rank (pr_ref r); pr_id r; pr_pos r; rtype_rank (pr_type r)].
Fixpoint less (a b : list Z) : bool :=
  match a, b with
  | x :: a, y :: b => if x <? y then true else if y <? x then false else less a b
  | _, _ => false
  end.
(** std::stable_sort: PsxRelocator.cpp 362; the stable sorting is unique. *)
Fixpoint insert_rel (r : prel) (l : list prel) : list prel :=
  match l with
  | [] => [r]
  | x :: l => if less (tie x) (tie r) then x :: insert_rel r l else r :: x :: l
  end.
Fixpoint stable_sort (l : list prel) : list prel :=
  match l with [] => [] | r :: l => insert_rel r (stable_sort l) end.
Definition sort_segment (s : pseg) : pseg := mkPseg (sg_id s) (sg_data s) (stable_sort (sg_rels s)).

(** tolower: PsxRelocator.cpp 368-369. *)
Definition lower (name : list Z) : list Z := map (fun c => if (65 <=? c) && (c <=? 90) then c + 32 else c) name.
Definition env := list Z -> option Z.

Section Import.
(** Whether there can be a label with a name: SymbolTable.cpp, [getLabel]. *)
Variable valid : list Z -> bool.

Definition is_external (s : psym) : bool := match ps_kind s with External _ => true | _ => false end.
(** PsxRelocator.cpp 366-385: whether a symbol is fine. *)
Definition symbol_fine (labels : env) (s : psym) : bool :=
  valid (lower (ps_name s)) &&
  (match labels (lower (ps_name s)) with Some _ => is_external s | None => true end).
(** The loop of init: PsxRelocator.cpp 336-388; the files, and whether there were no messages. *)
Fixpoint prepare (labels : env) (es : list (list Z * list Z)) : res (option (list pfile * bool)) :=
  match es with
  | [] => ROk (Some ([], true))
  | e :: es =>
    do f <- parseObject (snd e);
    match f with
    | None => ROk None
    | Some f =>
      do r <- prepare labels es;
      match r with
      | None => ROk None
      | Some (fs, ok) => ROk (Some (mkPfile (map sort_segment (pf_segments f)) (pf_symbols f) :: fs,
                                    forallb (symbol_fine labels) (pf_symbols f) && ok))
      end
    end
  end.
(** init: PsxRelocator.cpp 326-391; no value: the file is tried as an ELF object. *)
Definition init (labels : env) (name d : list Z) : res (option (list pfile * bool)) :=
  do es <- loadPsxLibrary name d;
  match es with [] => ROk None | _ => prepare labels es end.
End Import.

(** ** Linking *)

(** Addition of ints. *)
Definition add_int (a b : Z) : res Z := if s32 (a + b) =? a + b then ROk (a + b) else RUb.

(** std::map<int,int>; a missing entry is 0. *)
Definition imap := list (Z * Z).
Fixpoint at_key (m : imap) (k : Z) : Z :=
  match m with [] => 0 | (j, v) :: m => if k =? j then v else at_key m k end.

(** PsxRelocator.cpp 408-409: the next multiple of 4, in ints. *)
Definition round_up (a : Z) : res Z := do b <- align_up a 4; add_int b 0.

(** PsxRelocator.cpp 399-410: the addresses of the segments, the last one first, and the address behind. *)
Fixpoint place_segments (m : imap) (address : Z) (ss : list pseg) : res (imap * Z) :=
  match ss with
  | [] => ROk (m, address)
  | s :: ss =>
    do e <- add_int address (s32 (size (sg_data s)));
    do e <- round_up e;
    place_segments ((sg_id s, address) :: m) e ss
  end.

(** Setting a label. *)
Definition set_label (labels : env) (name : list Z) (v : Z) : env :=
  fun n => if list_eq_dec Z.eq_dec n (lower name) then Some v else labels n.

(** PsxRelocator.cpp 412-450: the symbols; labels, symbol addresses, the address behind, success. *)
Record linked := mkLinked { lk_labels : env; lk_symbols : imap; lk_address : Z; lk_ok : bool }.
Fixpoint place_psymbols (offsets : imap) (l : linked) (ys : list psym) : res linked :=
  match ys with
  | [] => ROk l
  | y :: ys =>
    match ps_kind y with
    | Internal seg off | Function_ seg off =>
      do v <- add_int (at_key offsets seg) off;
      place_psymbols offsets (mkLinked (set_label (lk_labels l) (ps_name y) v) (lk_symbols l) (lk_address l) (lk_ok l)) ys
    | InternalID id seg off =>
      do v <- add_int (at_key offsets seg) off;
      place_psymbols offsets (mkLinked (set_label (lk_labels l) (ps_name y) v) ((id, v) :: lk_symbols l) (lk_address l) (lk_ok l)) ys
    | BSS id sz =>
      do e <- add_int (lk_address l) sz;
      do e <- round_up e;
      place_psymbols offsets (mkLinked (set_label (lk_labels l) (ps_name y) (lk_address l)) ((id, lk_address l) :: lk_symbols l) e (lk_ok l)) ys
    | External id =>
      match lk_labels l (lower (ps_name y)) with
      | None => place_psymbols offsets (mkLinked (lk_labels l) (lk_symbols l) (lk_address l) false) ys
      | Some v => place_psymbols offsets (mkLinked (lk_labels l) ((id, s32 v) :: lk_symbols l) (lk_address l) (lk_ok l)) ys
      end
    end
  end.

(** PsxRelocator.cpp 485-499: the relocation of the word for each kind. *)
Definition elf_type (t : rtype) : Z :=
  match t with WordLiteral => R_MIPS_32 | UpperImmediate => R_MIPS_HI16 | LowerImmediate => R_MIPS_LO16 | FunctionCall => R_MIPS_26 end.
(** PsxRelocator.cpp 472-480: the address a relocation refers to. *)
Definition target (offsets symbols : imap) (r : prel) : res Z :=
  match pr_ref r with
  | SymblId => add_int (at_key symbols (pr_id r)) (pr_relative r)
  | SegmentOffset => do v <- add_int (at_key offsets (pr_id r)) (pr_pos r); add_int v (pr_relative r)
  end.
(** PsxRelocator.cpp 465-509: the loop over the relocations of a segment. *)
Fixpoint psx_relocations (offsets symbols : imap) (data : list Z) (hs : list hi16) (rs : list prel) : res (list action * list hi16 * bool) :=
  match rs with
  | [] => ROk ([], hs, true)
  | r :: rs =>
    do op <- getDoubleWord false data (pr_offset r);
    do base <- target offsets symbols r;
    do y <- mips_relocate (elf_type (pr_type r)) (mkData (pr_offset r) base op 0 0 0) hs;
    let '(acts, hs, ok) := y in
    do x <- psx_relocations offsets symbols data hs rs;
    let '(acts', hs, ok') := x in
    ROk (acts ++ acts', hs, ok && ok')
  end.
(** PsxRelocator.cpp 461-526: the relocated data of a segment. *)
Definition psx_segment (offsets symbols : imap) (s : pseg) : res (list Z * bool) :=
  do x <- psx_relocations offsets symbols (sg_data s) [] (sg_rels s);
  let '(acts, hs, ok) := x in
  do y <- mips_finish hs;
  do data <- apply_actions false (sg_data s) 0 (acts ++ fst y);
  ROk (data, ok && snd y).
(** PsxRelocator.cpp 459-530: the loop over the segments. *)
Fixpoint load_segments (offsets symbols : imap) (out : list Z) (data_start start : Z) (ss : list pseg) : res (list Z * bool) :=
  match ss with
  | [] => ROk (out, true)
  | s :: ss =>
    do x <- psx_segment offsets symbols s;
    do out <- copy_to out (data_start + at_key offsets (sg_id s) - start) (fst x);
    do y <- load_segments offsets symbols out data_start start ss;
    ROk (fst y, snd x && snd y)
  end.

(** relocateFile: PsxRelocator.cpp 393-533; labels, output, the address behind, success. *)
Record pstep := mkPstep { pt_labels : env; pt_out : list Z; pt_address : Z; pt_ok : bool }.
Definition psx_file (labels : env) (out : list Z) (address : Z) (f : pfile) : res pstep :=
  do p <- place_segments [] address (pf_segments f);
  do l <- place_psymbols (fst p) (mkLinked labels [] (snd p) true) (pf_symbols f);
  if lk_ok l then
    do reserved <- reserve out (lk_address l - address);
    do x <- load_segments (fst p) (lk_symbols l) reserved (size out) address (pf_segments f);
    ROk (mkPstep (lk_labels l) (fst x) (lk_address l) (snd x))
  else ROk (mkPstep (lk_labels l) out (lk_address l) false).
(** relocate: PsxRelocator.cpp 535-556, without the check sum; labels, output, size, success. *)
Fixpoint psx_files (labels : env) (out : list Z) (address : Z) (fs : list pfile) : res pstep :=
  match fs with
  | [] => ROk (mkPstep labels out address true)
  | f :: fs =>
    do p <- psx_file labels out address f;
    do r <- psx_files (pt_labels p) (pt_out p) (pt_address p) fs;
    ROk (mkPstep (pt_labels r) (pt_out r) (pt_address r) (pt_ok p && pt_ok r))
  end.
(** Validate and Encode: PsxRelocator.cpp 580-592; the address is cast to an int.  Labels, bytes, the size that
    is left for them, success. *)
Definition psx_import (labels : env) (address : Z) (fs : list pfile) : res pstep :=
  do r <- psx_files labels [] (s32 address) fs;
  ROk (mkPstep (pt_labels r) (pt_out r) (pt_address r - s32 address) (pt_ok r)).
