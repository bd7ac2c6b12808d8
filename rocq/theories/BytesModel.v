(** Model of Util/ByteArray.{h,cpp}.

    The allocated memory is a list of cells; [None] is a byte that malloc or realloc left
    uninitialised.  Sizes are size_t; they are natural numbers here, so wrapping at 2^64 and failing
    allocations are not modelled.  [RUb] is an access outside the allocated memory. *)

Require Import ZArith List.
From Verif Require Import Ints Res.
Import ListNotations.

(** data_ with allocatedSize_ = length, and size_; ByteArray.h 117-119 *)
Record buffer := mkBuffer { b_cells : list (option Z); b_size : nat }.

(** ByteArray(), ByteArray.cpp 7-11 *)
Definition empty_buffer : buffer := mkBuffer [] 0.

(** The bytes the user sees. *)
Definition contents (b : buffer) : list (option Z) := firstn (b_size b) (b_cells b).

(** grow, 61-73: allocation rounded up to 512 bytes, old cells kept. *)
Definition round512 (n : nat) : nat := ((n + 511) / 512) * 512.
Definition grow (b : buffer) (needed : nat) : buffer :=
  if (needed <? List.length (b_cells b))%nat then b
  else
    let n := round512 needed in
    mkBuffer (firstn n (b_cells b) ++ repeat None (n - List.length (b_cells b))) (b_size b).

(** Writing consecutive cells (memcpy, memset, data_[pos] = b). *)
Fixpoint store (cells : list (option Z)) (pos : nat) (l : list (option Z)) : res (list (option Z)) :=
  match l with
  | [] => ROk cells
  | x :: r =>
      if (pos <? List.length cells)%nat
      then store (firstn pos cells ++ x :: skipn (S pos) cells) (S pos) r
      else RUb
  end.

(** append, 75-92 (both forms; the source does not overlap the buffer unless it is the buffer
    itself, whose data pointer is taken after grow) *)
Definition append (b : buffer) (l : list (option Z)) : res buffer :=
  let g := grow b (b_size b + List.length l) in
  do c <- store (b_cells g) (b_size g) l;
  ROk (mkBuffer c (b_size g + List.length l)).

(** replaceByte, ByteArray.h 34 *)
Definition replace_byte (b : buffer) (pos : nat) (v : Z) : res buffer :=
  do c <- store (b_cells b) pos [Some v]; ROk (mkBuffer c (b_size b)).

(** replaceBytes, ByteArray.cpp 94-100 *)
Fixpoint replace_bytes (b : buffer) (pos : nat) (l : list Z) : res buffer :=
  match l with
  | [] => ROk b
  | v :: r => do b <- replace_byte b pos v; replace_bytes b (S pos) r
  end.

(** reserveBytes, 102-107 *)
Definition reserve_bytes (b : buffer) (count : nat) (v : Z) : res buffer :=
  let g := grow b (b_size b + count) in
  do c <- store (b_cells g) (b_size g) (repeat (Some v) count);
  ROk (mkBuffer c (b_size g + count)).

(** alignSize, 109-117: at most [alignment] rounds. *)
Fixpoint align_loop (fuel : nat) (b : buffer) (alignment : nat) : res buffer :=
  if (b_size b mod alignment =? 0)%nat then ROk b
  else match fuel with
       | O => RErr
       | S fuel => do b <- append b [Some 0%Z]; align_loop fuel b alignment
       end.
Definition align_size (b : buffer) (alignment : nat) : res buffer :=
  if (alignment =? 0)%nat then ROk b else align_loop alignment b alignment.

(** resize, 119-123; clear, ByteArray.h 108 *)
Definition resize (b : buffer) (n : nat) : buffer :=
  let g := grow b n in mkBuffer (b_cells g) n.
Definition clear (b : buffer) : buffer := mkBuffer (b_cells b) 0.

(** Reading [n] cells from [pos] on (memcpy). *)
Definition load (cells : list (option Z)) (pos n : nat) : res (list (option Z)) :=
  if (pos + n <=? List.length cells)%nat then ROk (firstn n (skipn pos cells)) else RUb.

(** mid, 125-138; [length] is negative for "up to the end", and the length is not checked against
    the size.  left and right, ByteArray.h 111-112; size_-length wraps. *)
Definition mid (b : buffer) (start : nat) (length : Z) : res buffer :=
  let n := if (length <? 0)%Z then (b_size b - start)%nat else Z.to_nat length in
  if (b_size b <=? start)%nat then ROk empty_buffer
  else
    let g := grow empty_buffer n in
    do l <- load (b_cells b) start n;
    do c <- store (b_cells g) 0 l;
    ROk (mkBuffer c n).
Definition left (b : buffer) (n : nat) : res buffer := mid b 0 (Z.of_nat n).
Definition right (b : buffer) (n : nat) : res buffer :=
  if (b_size b <? n)%nat then ROk empty_buffer else mid b (b_size b - n) (Z.of_nat n).

(** getWord and getDoubleWord, ByteArray.h 39-66: -1 outside the buffer.  A cell that is not
    initialised gives no defined value.  d[pos+3] << 24 shifts into the sign bit, which gives the
    int with that bit pattern. *)
Definition cell (b : buffer) (pos : nat) : res Z :=
  match nth_error (b_cells b) pos with Some (Some v) => ROk v | _ => RUb end.
Definition get_word (b : buffer) (pos : nat) (big : bool) : res Z :=
  if (b_size b <=? pos + 1)%nat then ROk (-1)%Z
  else
    do d0 <- cell b pos; do d1 <- cell b (pos + 1);
    ROk (if big then Z.lor d1 (Z.shiftl d0 8) else Z.lor d0 (Z.shiftl d1 8)).
Definition get_dword (b : buffer) (pos : nat) (big : bool) : res Z :=
  if (b_size b <=? pos + 3)%nat then ROk (-1)%Z
  else
    do d0 <- cell b pos; do d1 <- cell b (pos + 1); do d2 <- cell b (pos + 2); do d3 <- cell b (pos + 3);
    ROk (s32 (if big
              then Z.lor (Z.lor (Z.lor d3 (Z.shiftl d2 8)) (Z.shiftl d1 16)) (Z.shiftl d0 24)
              else Z.lor (Z.lor (Z.lor d0 (Z.shiftl d1 8)) (Z.shiftl d2 16)) (Z.shiftl d3 24))).

(** replaceWord and replaceDoubleWord, ByteArray.h 68-98; the value is an unsigned int. *)
Definition byte_of (w : Z) (shift : Z) : Z := Z.land (Z.shiftr w shift) 255.
Definition replace_word (b : buffer) (pos : nat) (w : Z) (big : bool) : res buffer :=
  if (b_size b <=? pos + 1)%nat then ROk b
  else
    do c <- store (b_cells b) pos
      (if big then [Some (byte_of w 8); Some (byte_of w 0)] else [Some (byte_of w 0); Some (byte_of w 8)]);
    ROk (mkBuffer c (b_size b)).
Definition replace_dword (b : buffer) (pos : nat) (w : Z) (big : bool) : res buffer :=
  if (b_size b <=? pos + 3)%nat then ROk b
  else
    do c <- store (b_cells b) pos
      (if big then [Some (byte_of w 24); Some (byte_of w 16); Some (byte_of w 8); Some (byte_of w 0)]
       else [Some (byte_of w 0); Some (byte_of w 8); Some (byte_of w 16); Some (byte_of w 24)]);
    ROk (mkBuffer c (b_size b)).
