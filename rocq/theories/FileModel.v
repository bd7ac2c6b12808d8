(** Model of the file manager: GenericAssemblerFile and FileManager, Core/FileManager.{h,cpp}.

    File names are numbers, the disk is a map from names to contents.  A stream is open or not, has
    a write position, and may be in the failed state.  Writing past the end fills the gap with zero
    bytes.  The host is a parameter: which files can be written, and its byte order.  Running out
    of space is not modelled.  [RUb]: a signed 64-bit address computation overflows, or the
    null pointer is used.  The effect of seekVirtual on Global.Section is not modelled. *)

Require Import ZArith List Bool.
From Verif Require Import Ints Res.
Import ListNotations.
Local Open Scope Z_scope.

(** GenericAssemblerFile::Mode and members, FileManager.h 61-70; [g_open], [g_pos], [g_fail]: the stream *)
Inductive fmode := MOpen | MCreate | MCopy.
Record gfile := mkFile {
  g_name : nat; g_original : nat; g_mode : fmode; g_header0 : Z; g_header : Z; g_virtual : Z;
  g_open : bool; g_pos : Z; g_fail : bool }.

(** The two constructors, FileManager.cpp 26-38 *)
Definition new_file (name original : nat) (mode : fmode) (header : Z) : gfile :=
  mkFile name original mode header header header false 0 false.

Definition disk := nat -> option (list Z).
Definition disk_set (d : disk) (n : nat) (c : list Z) : disk := fun m => if Nat.eqb m n then Some c else d m.

(** FileManager, FileManager.h 94-98, and the disk.  [f_queued], [f_printed]: an error was queued, printed. *)
Record fmgr := mkMgr {
  f_files : list gfile; f_active : option nat; f_big : bool; f_disk : disk; f_queued : bool; f_printed : bool }.

Fixpoint set_file (l : list gfile) (n : nat) (g : gfile) {struct l} : list gfile :=
  match l, n with
  | [], _ => []
  | _ :: l, O => g :: l
  | x :: l, S n => x :: set_file l n g
  end.
Definition put_file (m : fmgr) (i : nat) (g : gfile) : fmgr :=
  mkMgr (set_file (f_files m) i g) (f_active m) (f_big m) (f_disk m) (f_queued m) (f_printed m).
Definition queue (m : fmgr) : fmgr := mkMgr (f_files m) (f_active m) (f_big m) (f_disk m) true (f_printed m).
Definition print (m : fmgr) : fmgr := mkMgr (f_files m) (f_active m) (f_big m) (f_disk m) (f_queued m) true.
Definition set_active (m : fmgr) (a : option nat) : fmgr :=
  mkMgr (f_files m) a (f_big m) (f_disk m) (f_queued m) (f_printed m).
Definition set_disk (m : fmgr) (d : disk) : fmgr :=
  mkMgr (f_files m) (f_active m) (f_big m) d (f_queued m) (f_printed m).

(** std::ofstream::open that finds the file, and close: opening an open stream fails, keeping it as it is. *)
Definition stream_open (g : gfile) : gfile :=
  if g_open g then mkFile (g_name g) (g_original g) (g_mode g) (g_header0 g) (g_header g) (g_virtual g) true (g_pos g) true
  else mkFile (g_name g) (g_original g) (g_mode g) (g_header0 g) (g_header g) (g_virtual g) true 0 false.
Definition stream_close (g : gfile) : gfile :=
  mkFile (g_name g) (g_original g) (g_mode g) (g_header0 g) (g_header g) (g_virtual g) false (g_pos g) (g_fail g).
Definition stream_seek (g : gfile) (p : Z) : gfile :=
  if g_fail g then g
  else mkFile (g_name g) (g_original g) (g_mode g) (g_header0 g) (g_header g) (g_virtual g) (g_open g) p (g_fail g).
Definition set_virtual (g : gfile) (v : Z) : gfile :=
  mkFile (g_name g) (g_original g) (g_mode g) (g_header0 g) (g_header g) v (g_open g) (g_pos g) (g_fail g).
Definition set_header (g : gfile) (h : Z) : gfile :=
  mkFile (g_name g) (g_original g) (g_mode g) (g_header0 g) h (g_virtual g) (g_open g) (g_pos g) (g_fail g).

(** Bytes put at a position of a file; a gap before it is filled with zero.  Without bytes the file
    stays as it is. *)
Definition put_bytes (c : list Z) (p : nat) (l : list Z) : list Z :=
  if (List.length l =? 0)%nat then c else firstn p (c ++ repeat 0 (p - List.length c)) ++ l ++ skipn (p + List.length l) c.

Section Host.
  Variable writable : nat -> bool.
  Variable own_big : bool.

  Definition exists_file (d : disk) (n : nat) : bool := match d n with Some _ => true | None => false end.

  (** GenericAssemblerFile::open(false), 40-85 *)
  Definition open_real (m : fmgr) (i : nat) (g : gfile) : fmgr * bool :=
    let g := set_virtual (set_header g (g_header0 g)) (g_header0 g) in
    let failed := (print (put_file m i g), false) in
    match g_mode g with
    | MOpen =>
        if g_open g then (put_file m i (stream_open g), true)
        else if exists_file (f_disk m) (g_name g) && writable (g_name g) then (put_file m i (stream_open g), true)
        else failed
    | MCreate =>
        if g_open g then (put_file m i (stream_open g), true)
        else if writable (g_name g) then (set_disk (put_file m i (stream_open g)) (disk_set (f_disk m) (g_name g) []), true)
        else failed
    | MCopy =>
        match f_disk m (g_original g) with
        | None => failed
        | Some c =>
            if Nat.eqb (g_original g) (g_name g) || negb (writable (g_name g)) then failed
            else (set_disk (put_file m i (stream_open g)) (disk_set (f_disk m) (g_name g) c), true)
        end
    end.

  (** open(true), 86-147: the file that is created for the test is removed again. *)
  Definition open_check (m : fmgr) (i : nat) (g : gfile) : fmgr * bool :=
    let g := set_virtual (set_header g (g_header0 g)) (g_header0 g) in
    let m := put_file m i g in
    let ok :=
      match g_mode g with
      | MOpen => exists_file (f_disk m) (g_name g) && writable (g_name g)
      | MCreate => writable (g_name g)
      | MCopy => exists_file (f_disk m) (g_original g) && writable (g_original g) &&
                 negb (Nat.eqb (g_original g) (g_name g)) && writable (g_name g)
      end in
    if ok then (m, true) else (queue m, false).

  Definition active (m : fmgr) : option (nat * gfile) :=
    match f_active m with
    | Some i => match nth_error (f_files m) i with Some g => Some (i, g) | None => None end
    | None => None
    end.

  (** FileManager::openFile, 249-259 (file objects are numbers of the list) *)
  Definition open_file (m : fmgr) (i : nat) (only_check : bool) : fmgr * bool :=
    let m := match active m with Some (j, g) => put_file m j (stream_close g) | None => m end in
    let m := set_active m (Some i) in
    match nth_error (f_files m) i with
    | None => (m, false)
    | Some g => if only_check then open_check m i g else open_real m i g
    end.

  (** closeFile, 266-276 *)
  Definition close_file (m : fmgr) : fmgr :=
    match active m with
    | None => m
    | Some (j, g) => set_active (put_file m j (stream_close g)) None
    end.

  (** GenericAssemblerFile::write, 149-157, called by FileManager::write, 278-290.  An address that
      would pass the largest 64-bit number is left out of the model. *)
  Definition write (m : fmgr) (l : list Z) : res (fmgr * bool) :=
    match active m with
    | None => ROk (queue m, false)
    | Some (i, g) =>
        if negb (g_open g) then ROk (queue m, false)
        else
          let n := Z.of_nat (List.length l) in
          if in_int64 (g_virtual g + n) then
            let g' := set_virtual g (g_virtual g + n) in
            if g_fail g then ROk (put_file m i g', false)
            else
              let c := match f_disk m (g_name g) with Some c => c | None => [] end in
              let g' := stream_seek g' (g_pos g + n) in
              ROk (set_disk (put_file m i g') (disk_set (f_disk m) (g_name g) (put_bytes c (Z.to_nat (g_pos g)) l)), true)
          else RUb
    end.

  (** swapEndianness16/32/64, 8-24 *)
  Definition swap16 (v : Z) : Z := Z.lor (Z.shiftl (Z.land v 0xFF) 8) (Z.shiftr (Z.land v 0xFF00) 8).
  Definition swap32 (v : Z) : Z :=
    Z.lor (Z.lor (Z.lor (Z.shiftl (Z.land v 0xFF) 24) (Z.shiftl (Z.land v 0xFF00) 8)) (Z.shiftr (Z.land v 0xFF0000) 8))
          (Z.shiftr (Z.land v 0xFF000000) 24).
  Definition swap64 (v : Z) : Z :=
    Z.lor (Z.lor (Z.lor (Z.lor (Z.lor (Z.lor (Z.lor
      (Z.shiftl (Z.land v 0xFF) 56) (Z.shiftl (Z.land v 0xFF00) 40)) (Z.shiftl (Z.land v 0xFF0000) 24))
      (Z.shiftl (Z.land v 0xFF000000) 8)) (Z.shiftr (Z.land v 0xFF00000000) 8)) (Z.shiftr (Z.land v 0xFF0000000000) 24))
      (Z.shiftr (Z.land v 0xFF000000000000) 40)) (Z.shiftr (Z.land v 0xFF00000000000000) 56).

  (** The bytes of an integer in memory, lowest address first, on this host *)
  Fixpoint memory_le (n : nat) (v : Z) : list Z :=
    match n with O => [] | S n => Z.land v 0xFF :: memory_le n (Z.shiftr v 8) end.
  Definition memory (n : nat) (v : Z) : list Z := if own_big then rev (memory_le n v) else memory_le n v.

  (** writeU8/16/32/64, 292-319; the argument is converted to the parameter type. *)
  Definition write_u8 (m : fmgr) (v : Z) : res (fmgr * bool) := write m (memory 1 (u8 v)).
  Definition write_u16 (m : fmgr) (v : Z) : res (fmgr * bool) :=
    let v := u16 v in write m (memory 2 (if Bool.eqb (f_big m) own_big then v else swap16 v)).
  Definition write_u32 (m : fmgr) (v : Z) : res (fmgr * bool) :=
    let v := u32 v in write m (memory 4 (if Bool.eqb (f_big m) own_big then v else swap32 v)).
  Definition write_u64 (m : fmgr) (v : Z) : res (fmgr * bool) :=
    let v := u64 v in write m (memory 8 (if Bool.eqb (f_big m) own_big then v else swap64 v)).

  (** getVirtualAddress, getPhysicalAddress, getHeaderSize, 321-340 *)
  Definition get_virtual (m : fmgr) : Z := match active m with None => -1 | Some (_, g) => g_virtual g end.
  Definition get_physical (m : fmgr) : Z := match active m with None => -1 | Some (_, g) => g_virtual g - g_header g end.
  Definition get_header (m : fmgr) : Z := match active m with None => -1 | Some (_, g) => g_header g end.

  (** GenericAssemblerFile::seekVirtual, 159-176 *)
  Definition file_seek_virtual (m : fmgr) (i : nat) (g : gfile) (a : Z) : res (fmgr * bool) :=
    let p := a - g_header g in
    if negb (in_int64 p) then RUb
    else if p <? 0 then ROk (queue m, false)
    else
      let g := set_virtual g a in
      ROk (put_file m i (if g_open g then stream_seek g p else g), true).
  (** seekPhysical, 178-195 *)
  Definition file_seek_physical (m : fmgr) (i : nat) (g : gfile) (p : Z) : res (fmgr * bool) :=
    if p <? 0 then ROk (queue m, false)
    else if negb (in_int64 (p + g_header g)) then RUb
    else
      let g := set_virtual g (p + g_header g) in
      ROk (put_file m i (if g_open g then stream_seek g p else g), true).

  (** FileManager::seekVirtual, 342-356; seekPhysical, 358-363; advanceMemory, 365-372 (the sum is computed in
      64 bits unsigned and converted back) *)
  Definition seek_virtual (m : fmgr) (a : Z) : res (fmgr * bool) :=
    match active m with None => ROk (queue m, false) | Some (i, g) => file_seek_virtual m i g a end.
  Definition seek_physical (m : fmgr) (p : Z) : res (fmgr * bool) :=
    match active m with None => ROk (queue m, false) | Some (i, g) => file_seek_physical m i g p end.
  Definition advance (m : fmgr) (n : Z) : res (fmgr * bool) :=
    match active m with None => ROk (queue m, false) | Some (i, g) => file_seek_virtual m i g (s64 (g_virtual g + n)) end.

  (** CDirectiveHeaderSize::exec, Commands/CDirectiveFile.cpp 436-449: without an open file the null
      pointer is used. *)
  Definition header_size (m : fmgr) (h : Z) : res (fmgr * bool) :=
    match active m with
    | None => RUb
    | Some (i, g) =>
        let g' := set_header g h in
        file_seek_physical (put_file m i g') i g' (g_virtual g - g_header g)
    end.

  (** setEndianness, FileManager.h 92; reset, FileManager.cpp 233-237 *)
  Definition set_endianness (m : fmgr) (big : bool) : fmgr :=
    mkMgr (f_files m) (f_active m) big (f_disk m) (f_queued m) (f_printed m).
  Definition reset (m : fmgr) : fmgr := mkMgr (f_files m) None false (f_disk m) (f_queued m) (f_printed m).

  (** The constructor of the file manager *)
  Definition new_manager (files : list gfile) (d : disk) : fmgr := mkMgr files None false d false false.

  (** What a program can do with the file manager *)
  Inductive file_op :=
  | FOpen (i : nat) (only_check : bool) | FClose | FWrite (l : list Z) | FWriteUnit (n : nat) (v : Z)
  | FSeek (a : Z) | FSeekPhysical (p : Z) | FAdvance (n : Z) | FHeader (h : Z) | FEndian (big : bool).
  Definition file_step (m : fmgr) (o : file_op) : res (fmgr * bool) :=
    match o with
    | FOpen i c => ROk (open_file m i c)
    | FClose => ROk (close_file m, true)
    | FWrite l => write m l
    | FWriteUnit 1 v => write_u8 m v
    | FWriteUnit 2 v => write_u16 m v
    | FWriteUnit 4 v => write_u32 m v
    | FWriteUnit _ v => write_u64 m v
    | FSeek a => seek_virtual m a
    | FSeekPhysical p => seek_physical m p
    | FAdvance n => advance m n
    | FHeader h => header_size m h
    | FEndian b => ROk (set_endianness m b, true)
    end.
End Host.
