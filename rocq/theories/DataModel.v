(** Model of the data directives: CDirectiveData, Commands/CDirectiveData.{h,cpp}.

    The entries are taken after evaluation.  Strings are byte strings.  The Shift-JIS table, built by
    encodeSjis (198-228) from the conversion table of the text reader, is a parameter. *)

Require Import ZArith List Bool String Ascii.
Require Import Floats.SpecFloat.
From Verif Require Import Ints Res ExprModel TableModel FloatModel FileModel.
Import ListNotations.
Local Open Scope Z_scope.

(** EncodingMode, CDirectiveData.h 7 *)
Inductive dmode := DInvalid | DU8 | DU16 | DU32 | DU64 | DAscii | DFloat | DDouble | DSjis | DCustom.

(** The members that matter *)
Record datacmd := mkData { d_mode : dmode; d_term : bool; d_normal : list Z; d_custom : list Z }.

(** setNormal 55-80, setFloat.. setCustom 82-115: a fresh command *)
Definition set_normal (unit : Z) : datacmd :=
  mkData (if unit =? 1 then DU8 else if unit =? 2 then DU16 else if unit =? 4 then DU32 else if unit =? 8 then DU64 else DInvalid)
         false [] [].
Definition set_mode (m : dmode) (terminate : bool) : datacmd := mkData m terminate [] [].

(** getUnitSize, 117-138 *)
Definition unit_size (m : dmode) : nat :=
  match m with
  | DU8 | DAscii | DSjis | DCustom => 1
  | DU16 => 2
  | DU32 | DFloat => 4
  | DU64 | DDouble => 8
  | DInvalid => 0
  end%nat.
(** getDataSize, 140-161 *)
Definition data_size (c : datacmd) : nat :=
  match d_mode c with
  | DSjis | DCustom => List.length (d_custom c)
  | DInvalid => 0
  | m => (List.length (d_normal c) * unit_size m)%nat
  end.

Definition string_bytes (s : string) : list Z := map (fun c => Z.of_N (N_of_ascii c)) (list_ascii_of_string s).

Section Host.
  Variables nan32 nan64 : Z.

  (** encodeCustom, 163-196: the data and whether an error was queued *)
  Fixpoint custom_entries (t : table) (l : list value) : res (list Z * bool) :=
    match l with
    | [] => ROk ([], false)
    | v :: l =>
        do first <- (match v with
                     | VInt i => ROk ([u8 i], false)
                     | VStr s => encode_custom_string t (string_bytes s)
                     | VInvalid | VFloat _ => ROk ([], true)
                     end);
        do rest <- custom_entries t l;
        ROk (fst first ++ fst rest, snd first || snd rest)
    end.
  Definition encode_custom (t : table) (terminate : bool) (l : list value) : res (list Z * bool) :=
    do r <- custom_entries t l;
    if terminate then do h <- encode_termination t; ROk (fst r ++ h, snd r) else ROk r.

  (** encodeFloat, 230-262 *)
  Definition float_entry (m : dmode) (v : value) : list Z * bool :=
    match v, m with
    | VInt i, DFloat => ([get_float_bits nan32 (int_to_single i)], false)
    | VInt i, DDouble => ([get_double_bits nan64 (int_to_double i)], false)
    | VFloat f, DFloat => ([get_float_bits nan32 (to_single f)], false)
    | VFloat f, DDouble => ([get_double_bits nan64 f], false)
    | _, _ => ([], true)
    end.
  (** encodeNormal, 264-309; the characters of a string are signed, so those above 127 become large
      unsigned numbers *)
  Definition normal_entry (m : dmode) (v : value) : list Z * bool :=
    match v, m with
    | VStr s, _ => (map (fun c => s64 (s8 c)) (string_bytes s), existsb (fun c => 0x80 <=? u64 (s8 c)) (string_bytes s))
    | VInt i, _ => ([i], false)
    | VFloat f, DU32 => ([get_float_bits nan32 (to_single f)], false)
    | VFloat f, DU64 => ([get_double_bits nan64 f], false)
    | _, _ => ([], true)
    end.
  Definition entries_of (f : value -> list Z * bool) (l : list value) : list Z * bool :=
    (flat_map (fun v => fst (f v)) l, existsb (fun v => snd (f v)) l).

  (** Validate, 311-345, without the position: the command, whether its size changed, whether an
      error was queued.  [global]: Global.Table; the address is advanced by the new size. *)
  Definition data_validate (sjis global : table) (c : datacmd) (l : list value) : res (datacmd * bool * bool) :=
    do r <- (match d_mode c with
             | DU8 | DU16 | DU32 | DU64 | DAscii =>
                 let e := entries_of (normal_entry (d_mode c)) l in
                 ROk (mkData (d_mode c) (d_term c) (fst e ++ (if d_term c then [0] else [])) (d_custom c), snd e)
             | DFloat | DDouble =>
                 let e := entries_of (float_entry (d_mode c)) l in
                 ROk (mkData (d_mode c) (d_term c) (fst e) (d_custom c), snd e)
             | DSjis => do e <- encode_custom sjis (d_term c) l; ROk (mkData (d_mode c) (d_term c) (d_normal c) (fst e), snd e)
             | DCustom => do e <- encode_custom global (d_term c) l; ROk (mkData (d_mode c) (d_term c) (d_normal c) (fst e), snd e)
             | DInvalid => ROk (c, true)
             end);
    ROk (fst r, negb (Nat.eqb (data_size c) (data_size (fst r))), snd r).

  (** Encode, 347-382 *)
  Variable writable : nat -> bool.
  Variable own_big : bool.
  Fixpoint write_units (n : nat) (m : fmgr) (l : list Z) : res fmgr :=
    match l with
    | [] => ROk m
    | v :: l => do r <- file_step writable own_big m (FWriteUnit n v); write_units n (fst r) l
    end.
  Definition data_encode (m : fmgr) (c : datacmd) : res fmgr :=
    match d_mode c with
    | DSjis | DCustom => do r <- file_step writable own_big m (FWrite (d_custom c)); ROk (fst r)
    | DInvalid => ROk m
    | d => write_units (unit_size d) m (d_normal c)
    end.
End Host.
