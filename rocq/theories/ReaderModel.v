(** Model of reading text: class TextFile, Util/FileClasses.{h,cpp}, and the UTF-8 encoders of
    Util/Util.cpp and Util/FileClasses.cpp.

    Bytes are integers 0..255.  The Shift-JIS tables (FileClasses.cpp 31-607) are not transcribed;
    the conversion is a parameter.  Error texts are reduced to a flag. *)

Require Import ZArith List Bool.
From Verif Require Import Ints Res.
Import ListNotations.
Local Open Scope Z_scope.

(** convertUnicodeCharToUtf8, Util.cpp 7-25, and encodeUtf8, FileClasses.cpp 13-30 *)
Definition utf8_encode (c : Z) : list Z :=
  if c <? 0x80 then [Z.land c 0x7F]
  else if c <? 0x800 then
    [Z.lor 0xC0 (Z.land (Z.shiftr c 6) 0x1F); Z.lor 0x80 (Z.land c 0x3F)]
  else
    [Z.lor 0xE0 (Z.land (Z.shiftr c 12) 0xF); Z.lor 0x80 (Z.land (Z.shiftr c 6) 0x3F);
     Z.lor 0x80 (Z.land c 0x3F)].

(** TextFile::Encoding, FileClasses.h 14 *)
Inductive encoding := ASCII | UTF8 | UTF16LE | UTF16BE | SJIS | GUESS.

(** The members used for reading, FileClasses.h 59-74.  [f_content] is the text in memory or the
    bytes of the file; [f_stream] and [f_fail] are the position and the failbit of the stream. *)
Record tfile := mkFile {
  f_memory : bool; f_content : list Z; f_encoding : encoding; f_pos : nat;
  f_buf : list Z; f_bufpos : nat; f_stream : nat; f_fail : bool; f_error : bool }.

Definition set_error (f : tfile) : tfile :=
  mkFile (f_memory f) (f_content f) (f_encoding f) (f_pos f) (f_buf f) (f_bufpos f) (f_stream f) (f_fail f) true.

(** openMemory, FileClasses.cpp 663-672 *)
Definition open_memory (content : list Z) : tfile :=
  mkFile true content UTF8 0 [] 0 0 false false.

(** open in mode Read, 680-766, of a file that exists.  The three-byte read sets failbit on a
    shorter file, and seekg does nothing on a stream with failbit set. *)
Definition open_file (content : list Z) (default : encoding) : tfile :=
  let short := (List.length content <? 3)%nat in
  let b0 := nth 0 content 0 in let b1 := nth 1 content 0 in let b2 := nth 2 content 0 in
  let seekg (n : nat) := if short then List.length content else n in
  let file (e : encoding) (pos stream : nat) := mkFile false content e pos [] 0 stream short false in
  if (b0 =? 0xFE) && (b1 =? 0xFF) then file UTF16BE 2%nat (seekg 2%nat)
  else if (b0 =? 0xFF) && (b1 =? 0xFE) then file UTF16LE 2%nat (seekg 2%nat)
  else if (b0 =? 0xEF) && (b1 =? 0xBB) && (b2 =? 0xBF) then file UTF8 3%nat (seekg 3%nat)
  else file (match default with GUESS => UTF8 | e => e end) 0%nat (seekg 0%nat).

Definition buffer_size : nat := 4096.

(** bufFillRead, 791-799: a short read sets failbit; a failed stream gives nothing. *)
Definition fill (f : tfile) : tfile :=
  let chunk := if f_fail f then [] else firstn buffer_size (skipn (f_stream f) (f_content f)) in
  mkFile (f_memory f) (f_content f) (f_encoding f) (f_pos f) chunk 0
         (f_stream f + List.length chunk) (f_fail f || (List.length chunk <? buffer_size)%nat) (f_error f).

(** bufGetChar, FileClasses.h 76-89.  content[content.size()] is the terminator; beyond it the
    access is undefined. *)
Definition get_char (f : tfile) : res (Z * tfile) :=
  if f_memory f then
    if (f_pos f <=? List.length (f_content f))%nat then
      ROk (nth (f_pos f) (f_content f) 0,
           mkFile true (f_content f) (f_encoding f) (S (f_pos f)) (f_buf f) (f_bufpos f)
                  (f_stream f) (f_fail f) (f_error f))
    else RUb
  else
    let f := if (List.length (f_buf f) <=? f_bufpos f)%nat then fill f else f in
    match skipn (f_bufpos f) (f_buf f) with
    | [] => ROk (0, f)
    | b :: _ =>
        ROk (b, mkFile false (f_content f) (f_encoding f) (S (f_pos f)) (f_buf f) (S (f_bufpos f))
                       (f_stream f) (f_fail f) (f_error f))
    end.

(** seek, 783-789: in a file only the stream moves, not the buffer and not contentPos. *)
Definition seek (f : tfile) (pos : nat) : tfile :=
  if f_memory f then
    mkFile true (f_content f) (f_encoding f) pos (f_buf f) (f_bufpos f) (f_stream f) (f_fail f) (f_error f)
  else
    mkFile false (f_content f) (f_encoding f) (f_pos f) (f_buf f) (f_bufpos f)
           (if f_fail f then f_stream f else pos) (f_fail f) (f_error f).

(** atEnd, FileClasses.h 23 *)
Definition at_end (f : tfile) : bool := (List.length (f_content f) <=? f_pos f)%nat.

(** The continuation bytes of a UTF-8 character, 822-831 *)
Fixpoint more_bytes (n : nat) (value : Z) (f : tfile) : res (Z * tfile) :=
  match n with
  | O => ROk (value, f)
  | S n =>
      do x <- get_char f;
      let '(b, f) := x in
      let f := if Z.land b 0xC0 =? 0x80 then f else set_error f in
      more_bytes n (u32 (Z.lor (Z.shiftl value 6) (Z.land b 0x3F))) f
  end.

Section Read.
  (** sjisToUnicode, 609-645 *)
  Variable sjis : Z -> option Z.

  (** The switch of readCharacter, 805-863 *)
  Definition read_value (f : tfile) : res (Z * tfile) :=
    match f_encoding f with
    | UTF8 =>
        do x <- get_char f;
        let '(v, f) := x in
        if Z.land v 0xE0 =? 0xC0 then more_bytes 1 (Z.land v 0x1F) f
        else if Z.land v 0xF0 =? 0xE0 then more_bytes 2 (Z.land v 0x0F) f
        else ROk (v, if v >? 0x7F then set_error f else f)
    | UTF16LE =>
        do x <- get_char f; let '(c1, f) := x in
        do x <- get_char f; let '(c2, f) := x in
        ROk (Z.lor c1 (Z.shiftl c2 8), f)
    | UTF16BE =>
        do x <- get_char f; let '(c1, f) := x in
        do x <- get_char f; let '(c2, f) := x in
        ROk (Z.lor c2 (Z.shiftl c1 8), f)
    | SJIS =>
        do x <- get_char f; let '(c1, f) := x in
        do x <- (if c1 >=? 0x80
                 then do y <- get_char f; let '(c2, f) := y in ROk (Z.lor (Z.shiftl c1 8) c2, f)
                 else ROk (c1, f));
        let '(c, f) := x in
        match sjis c with
        | Some v => ROk (v, f)
        | None => ROk (0, set_error f)
        end
    | ASCII =>
        do x <- get_char f; let '(v, f) := x in
        ROk (v, mkFile (f_memory f) (f_content f) (f_encoding f) (S (f_pos f)) (f_buf f) (f_bufpos f)
                       (f_stream f) (f_fail f) (f_error f))
    | GUESS => ROk (0, set_error f)
    end.

  (** readCharacter, 801-879: \r\n becomes \n *)
  Definition read_character (f : tfile) : res (Z * tfile) :=
    do x <- read_value f;
    let '(v, f) := x in
    if (v =? 13) && negb (at_end f) then
      do y <- read_value f;
      let '(v2, f2) := y in
      if v2 =? 10 then ROk (v2, f2) else ROk (v, seek f2 (f_pos f))
    else ROk (v, f).

  (** readLine, 881-896; [RErr]: the bound of the model was reached. *)
  Fixpoint read_line (fuel : nat) (f : tfile) (acc : list Z) : res (list Z * tfile) :=
    match fuel with
    | O => RErr
    | S fuel =>
        if (f_pos f <? List.length (f_content f))%nat then
          do x <- read_character f;
          let '(v, f) := x in
          if v =? 10 then ROk (acc, f) else read_line fuel f (acc ++ utf8_encode v)
        else ROk (acc, f)
    end.

  (** readAll, 898-907; the file afterwards is returned too. *)
  Fixpoint read_all (fuel : nat) (f : tfile) : res (list (list Z) * tfile) :=
    match fuel with
    | O => RErr
    | S k =>
        if at_end f then ROk ([], f)
        else
          do x <- read_line fuel f [];
          let '(l, f) := x in
          do y <- read_all k f;
          let '(ls, f) := y in
          ROk (l :: ls, f)
    end.
End Read.
