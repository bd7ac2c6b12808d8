(** Model of the built-in expression functions: /repo/Core/ExpressionFunctions.cpp,
    /repo/Archs/MIPS/MipsExpressionFunctions.cpp, /repo/Archs/ARM/ArmExpressionFunctions.cpp. *)

Require Import ZArith Bool List String Ascii.
Require Import Floats.SpecFloat.
Require Import Verif.Ints Verif.ExprModel.
Import ListNotations.
Local Open Scope Z_scope.

Definition invalid_with (m : string) : outcome value := OVal VInvalid [Err m].

(** getExpFuncParameter for integers and strings, 32-61, in continuation form (the GET_PARAM and
    GET_OPTIONAL_PARAM macros, 63-70).  [None] as default: the parameter is required. *)
Definition get_int (ps : list value) (i : nat) (dflt : option Z) (k : Z -> outcome value)
  : outcome value :=
  match nth_error ps i with
  | Some (VInt z) => k z
  | Some _ => invalid_with "Invalid parameter: expecting integer"
  | None =>
      match dflt with
      | Some d => k d
      | None => invalid_with "Invalid parameter: expecting integer"
      end
  end.

Definition get_str (ps : list value) (i : nat) (k : string -> outcome value) : outcome value :=
  match nth_error ps i with
  | Some (VStr s) => k s
  | _ => invalid_with "Invalid parameter: expecting string"
  end.

(** [parameters[0]]: out-of-bounds access is undefined behaviour (excluded by the arity check). *)
Definition param0 (ps : list value) (k : value -> outcome value) : outcome value :=
  match ps with v :: _ => k v | [] => OUb end.

(** expFuncVersion, 73-77 with Core/Assembler.h 12-14: 0*1000 + 11*10 + 0. *)
Definition f_version (_ : estate) (_ : list value) : outcome value := oret (VInt 110).

(** expFuncEndianness, 79-93 *)
Definition f_endianness (st : estate) (_ : list value) : outcome value :=
  oret (VStr (if s_big st then "big" else "little")).

(** expFuncOutputName, 95-106 *)
Definition f_outputname (st : estate) (_ : list value) : outcome value :=
  if s_open st then oret (VStr (s_outname st)) else invalid_with "outputName: no file opened".

(** expFuncFileExists, 108-115; path resolution (getFullPathName) is part of [fs_exists]. *)
Definition f_fileexists (st : estate) (ps : list value) : outcome value :=
  get_str ps 0 (fun n => oret (VInt (bool_int (fs_exists (c_fs (s_ctx st)) n)))).

(** expFuncFileSize, 117-126 *)
Definition f_filesize (st : estate) (ps : list value) : outcome value :=
  get_str ps 0 (fun n => oret (VInt (s64 (fs_size (c_fs (s_ctx st)) n)))).

(** expFuncToString, 128-149 *)
Definition f_tostring (st : estate) (ps : list value) : outcome value :=
  param0 ps (fun v =>
  oret (match v with
        | VStr s => VStr s
        | VInt z => VStr (int_text z)
        | VFloat f => VStr (h_fmt17 (c_host (s_ctx st)) f)
        | VInvalid => VInvalid
        end)).

(** Upper-case hexadecimal digits of a non-negative number, at least one digit. *)
Definition hex_digit (d : Z) : ascii :=
  ascii_of_N (Z.to_N (if d <? 10 then d + 48 else d + 55)).
Fixpoint hex_go (fuel : nat) (n : Z) (acc : string) : string :=
  match fuel with
  | O => acc
  | S k =>
      let acc' := String (hex_digit (n mod 16)) acc in
      if n / 16 =? 0 then acc' else hex_go k (n / 16) acc'
  end.
Definition hex_text (n : Z) : string := hex_go 16 n EmptyString.
Fixpoint rep_char (c : ascii) (n : nat) : string :=
  match n with O => EmptyString | S k => String c (rep_char c k) end.

(** expFuncToHex, 151-158: "%0*X"; the value is printed as uint64_t, a negative width left-justifies
    with blanks.  The width is converted to int by tinyformat. *)
Definition f_tohex (_ : estate) (ps : list value) : outcome value :=
  get_int ps 0 None (fun v =>
  get_int ps 1 (Some 8) (fun d =>
  let t := hex_text (u64 v) in
  let w := s32 d in
  let pad := Z.to_nat (Z.abs w - Z.of_nat (String.length t)) in
  oret (VStr (if 0 <=? w then String.append (rep_char "0"%char pad) t
              else String.append t (rep_char " "%char pad))))).

(** Truncation of a finite double towards zero; [None] for infinities and NaN. *)
Definition sf_trunc (f : spec_float) : option Z :=
  match f with
  | S754_zero _ => Some 0
  | S754_finite s m e =>
      let a := if 0 <=? e then Zpos m * 2 ^ e else Zpos m / 2 ^ (- e) in
      Some (if s then - a else a)
  | _ => None
  end.

(** Rounding to nearest, halves away from zero (llround). *)
Definition sf_round (f : spec_float) : option Z :=
  match f with
  | S754_zero _ => Some 0
  | S754_finite s m e =>
      let a := if 0 <=? e then Zpos m * 2 ^ e else (2 * Zpos m + 2 ^ (- e)) / (2 * 2 ^ (- e)) in
      Some (if s then - a else a)
  | _ => None
  end.

(** A double that does not fit int64_t: undefined behaviour (unspecified for llround). *)
Definition to_int64 (z : option Z) : outcome value :=
  match z with Some z => int_or_ub z | None => OUb end.

(** expFuncInt, 160-178 *)
Definition f_int (_ : estate) (ps : list value) : outcome value :=
  param0 ps (fun v =>
  match v with
  | VInt z => oret (VInt z)
  | VFloat f => to_int64 (sf_trunc f)
  | _ => oret VInvalid
  end).

(** expFuncRound, 180-198 *)
Definition f_round (_ : estate) (ps : list value) : outcome value :=
  param0 ps (fun v =>
  match v with
  | VInt z => oret (VInt z)
  | VFloat f => to_int64 (sf_round f)
  | _ => oret VInvalid
  end).

(** expFuncFloat, 200-218 *)
Definition f_float (_ : estate) (ps : list value) : outcome value :=
  param0 ps (fun v =>
  oret (match v with
        | VInt z => VFloat (int_to_double z)
        | VFloat f => VFloat f
        | _ => VInvalid
        end)).

(** modf, fractional part with the sign of the argument. *)
Definition sf_frac (f : spec_float) : spec_float :=
  match f with
  | S754_zero s => S754_zero s
  | S754_infinity s => S754_zero s
  | S754_nan => S754_nan
  | S754_finite s m e =>
      if 0 <=? e then S754_zero s
      else
        let r := Zpos m mod 2 ^ (- e) in
        if r =? 0 then S754_zero s
        else binary_normalize prec64 emax64 (if s then - r else r) e s
  end.

(** expFuncFrac, 220-236 *)
Definition f_frac (_ : estate) (ps : list value) : outcome value :=
  param0 ps (fun v => oret (match v with VFloat f => VFloat (sf_frac f) | _ => VInvalid end)).

(** numeric_limits<double>::max() and ::min() (smallest positive normal). *)
Definition dbl_max : spec_float := S754_finite false 9007199254740991 971.
Definition dbl_min : spec_float := S754_finite false 4503599627370496 (-1074).

(** Loop state of expFuncMin/expFuncMax: intCur, intBest, floatBest, isInt. *)
Fixpoint minmax_loop (ibetter : Z -> Z -> bool) (fbetter : spec_float -> spec_float -> bool)
    (ps : list value) (icur ibest : Z) (fbest : spec_float) (isint : bool) : value :=
  match ps with
  | [] => if isint then VInt ibest else VFloat fbest
  | v :: t =>
      match v with
      | VInt z =>
          let fcur := int_to_double z in
          minmax_loop ibetter fbetter t z (if ibetter z ibest then z else ibest)
            (if fbetter fcur fbest then fcur else fbest) isint
      | VFloat f =>
          minmax_loop ibetter fbetter t icur (if ibetter icur ibest then icur else ibest)
            (if fbetter f fbest then f else fbest) false
      | _ => VInvalid
      end
  end.

(** expFuncMin, 238-281 *)
Definition f_min (_ : estate) (ps : list value) : outcome value :=
  oret (minmax_loop Z.ltb SFltb ps int64_max int64_max dbl_max true).

(** expFuncMax, 283-326: the float maximum starts from numeric_limits<double>::min(). *)
Definition f_max (_ : estate) (ps : list value) : outcome value :=
  oret (minmax_loop Z.gtb (fun a b => SFltb b a) ps int64_min int64_min dbl_min true).

(** expFuncAbs, 328-349 *)
Definition f_abs (_ : estate) (ps : list value) : outcome value :=
  param0 ps (fun v =>
  match v with
  | VFloat f => oret (VFloat (SFabs f))
  | VInt z => if 0 <=? z then oret (VInt z) else int_or_ub (- z)
  | _ => oret VInvalid
  end).

(** expFuncStrlen, 351-357 *)
Definition f_strlen (_ : estate) (ps : list value) : outcome value :=
  get_str ps 0 (fun s => oret (VInt (Z.of_nat (String.length s)))).

(** expFuncSubstr, 359-369: std::string::substr throws if the start is past the end. *)
Definition f_substr (_ : estate) (ps : list value) : outcome value :=
  get_str ps 0 (fun s =>
  get_int ps 1 None (fun start =>
  get_int ps 2 None (fun count =>
  let len := Z.of_nat (String.length s) in
  if len <? u64 start then OThrow
  else oret (VStr (String.substring (Z.to_nat (u64 start))
                     (Z.to_nat (Z.min (u64 count) (len - u64 start))) s))))).

(** expFuncRegExMatch, expFuncRegExSearch, 372-418 *)
Definition f_regex (m : host -> string -> string -> option bool) (st : estate) (ps : list value)
  : outcome value :=
  get_str ps 0 (fun s =>
  get_str ps 1 (fun r =>
  match m (c_host (s_ctx st)) s r with
  | Some b => oret (VInt (bool_int b))
  | None => invalid_with "Invalid regular expression"
  end)).

(** expFuncRegExExtract, 420-452 *)
Definition f_regex_extract (st : estate) (ps : list value) : outcome value :=
  get_str ps 0 (fun s =>
  get_str ps 1 (fun r =>
  get_int ps 2 (Some 0) (fun i =>
  match h_rx_extract (c_host (s_ctx st)) s r with
  | None => invalid_with "Invalid regular expression"
  | Some gs =>
      if Z.of_nat (List.length gs) <=? u64 i then
        invalid_with "Capture group index does not exist"
      else
        match nth_error gs (Z.to_nat (u64 i)) with
        | Some g => oret (VStr g)
        | None => OUb
        end
  end))).

(** std::string::find from a position: first occurrence at or after [start]. *)
Definition find_from (s v : string) (start : Z) : Z :=
  if Z.of_nat (String.length s) <? start then -1
  else
    match String.index (Z.to_nat start) v s with
    | Some p => Z.of_nat p
    | None => -1
    end.

(** expFuncFind, 455-467 *)
Definition f_find (_ : estate) (ps : list value) : outcome value :=
  get_str ps 0 (fun s =>
  get_str ps 1 (fun v =>
  get_int ps 2 (Some 0) (fun start => oret (VInt (find_from s v (u64 start)))))).

(** std::string::rfind: last occurrence starting at or before [start]. *)
Fixpoint rfind_go (s v : string) (p : nat) : Z :=
  if String.eqb (String.substring p (String.length v) s) v then Z.of_nat p
  else match p with O => -1 | S k => rfind_go s v k end.
Definition rfind_from (s v : string) (start : Z) : Z :=
  let ls := Z.of_nat (String.length s) in
  let lv := Z.of_nat (String.length v) in
  if ls <? lv then -1 else rfind_go s v (Z.to_nat (Z.min start (ls - lv))).

(** expFuncRFind, 469-481; the default start is npos converted to int64_t, i.e. -1. *)
Definition f_rfind (_ : estate) (ps : list value) : outcome value :=
  get_str ps 0 (fun s =>
  get_str ps 1 (fun v =>
  get_int ps 2 (Some (-1)) (fun start => oret (VInt (rfind_from s v (u64 start)))))).

(** Little-endian value of a byte list (the host is little endian). *)
Fixpoint le_value (l : list Z) : Z :=
  match l with [] => 0 | b :: t => b + 256 * le_value t end.

(** expFuncRead<T>, 484-518; [n] is sizeof(T), [conv] the conversion T -> int64_t. *)
Definition f_read (n : nat) (conv : Z -> Z) (st : estate) (ps : list value) : outcome value :=
  get_str ps 0 (fun name =>
  get_int ps 1 (Some 0) (fun pos =>
  match fs_bytes (c_fs (s_ctx st)) name with
  | None => invalid_with "Could not open"
  | Some bytes =>
      if pos <? 0 then invalid_with "Invalid offset"
      else
        let d := firstn n (skipn (Z.to_nat pos) bytes) in
        if (List.length d <? n)%nat then invalid_with "Failed to read"
        else oret (VInt (conv (le_value d)))
  end)).

(** The character loop of expFuncReadAscii, 556-583: [Some (Some s)]: text up to a zero byte or the
    end; [None]: a control character (or, [char] being signed, a byte above 127) was met. *)
Fixpoint ascii_go (l : list Z) : option string :=
  match l with
  | [] => Some EmptyString
  | b :: t =>
      if b =? 0 then Some EmptyString
      else if s8 b <? 32 then None
      else match ascii_go t with
           | Some r => Some (String (ascii_of_N (Z.to_N b)) r)
           | None => None
           end
  end.

(** expFuncReadAscii, 520-586.  Reading is done in 1024-byte chunks; a chunk that cannot be read
    completely is an error, which for a regular file happens only if the file is shorter than
    fs::file_size said.  The warning about a non-ASCII character is printed directly. *)
Definition f_readascii (st : estate) (ps : list value) : outcome value :=
  get_str ps 0 (fun name =>
  get_int ps 1 (Some 0) (fun start =>
  get_int ps 2 (Some 0) (fun len0 =>
  let total := s64 (fs_size (c_fs (s_ctx st)) name) in
  if negb (len0 =? 0) && negb (in_int64 (start + len0)) then OUb
  else
    let clip := (len0 =? 0) || (total <? start + len0) in
    if clip && negb (in_int64 (total - start)) then OUb
    else
      let len := if clip then total - start else len0 in
      match fs_bytes (c_fs (s_ctx st)) name with
      | None => invalid_with "Could not open"
      | Some bytes =>
          if start <? 0 then invalid_with "Invalid offset"
          else
            let d := firstn (Z.to_nat len) (skipn (Z.to_nat start) bytes) in
            match ascii_go d with
            | None => OVal VInvalid [Warn "Non-ASCII character"]
            | Some t =>
                if (Z.of_nat (List.length d) <? len) && (Z.of_nat (String.length t) =? Z.of_nat (List.length d))
                then invalid_with "Failed to read"
                else oret (VStr t)
            end
      end))).

(** expLabelFuncDefined, 588-598 *)
Definition f_defined (_ : estate) (ls : list (option label_info)) : outcome value :=
  match ls with
  | Some l :: _ => oret (VInt (bool_int (l_defined l)))
  | _ => invalid_with "Invalid parameters"
  end.

(** expLabelFuncOrg, 600-618 *)
Definition f_org (st : estate) (ls : list (option label_info)) : outcome value :=
  match ls with
  | None :: _ => oret VInvalid
  | Some l :: _ => oret (VInt (l_value l))
  | [] => if s_open st then oret (VInt (s_virtual st)) else invalid_with "no file opened"
  end.

(** expLabelFuncOrga, 620-645 *)
Definition f_orga (st : estate) (ls : list (option label_info)) : outcome value :=
  match ls with
  | None :: _ => oret VInvalid
  | Some l :: _ =>
      match l_phys l with
      | Some p => oret (VInt p)
      | None => invalid_with "parameter has no physical address"
      end
  | [] => if s_open st then oret (VInt (s_physical st)) else invalid_with "no file opened"
  end.

(** expLabelFuncHeaderSize, 647-670 *)
Definition f_headersize (st : estate) (ls : list (option label_info)) : outcome value :=
  match ls with
  | None :: _ => oret VInvalid
  | Some l :: _ =>
      match l_phys l with
      | Some p => int_or_ub (l_value l - p)
      | None => invalid_with "parameter has no physical address"
      end
  | [] => if s_open st then oret (VInt (s_header st)) else invalid_with "no file opened"
  end.

(** expFuncHi, Archs/MIPS/MipsExpressionFunctions.cpp 10-17: the cast binds to the sum, the mask is
    applied to it. *)
Definition f_hi (_ : estate) (ps : list value) : outcome value :=
  get_int ps 0 None (fun v =>
  oret (VInt (Z.land (Z.shiftr v 16 + bool_int (negb (Z.land v 32768 =? 0))) 65535))).

(** expFuncLo, MipsExpressionFunctions.cpp 19-26 *)
Definition f_lo (_ : estate) (ps : list value) : outcome value :=
  get_int ps 0 None (fun v => oret (VInt (s16 (Z.land v 65535)))).

(** expFuncIsArm, expFuncIsThumb, Archs/ARM/ArmExpressionFunctions.cpp 12-22 *)
Definition f_isarm (st : estate) (_ : list value) : outcome value :=
  oret (VInt (bool_int (c_isarm (s_ctx st)))).
Definition f_isthumb (st : estate) (_ : list value) : outcome value :=
  oret (VInt (bool_int (c_isthumb (s_ctx st)))).

(** expressionFunctions, ExpressionFunctions.cpp 672-710, and expressionLabelFunctions, 711-717. *)
Definition builtin_functions : list (string * func_entry) :=
  ([ ("version", mkEntry 0 0 Safe (FValue f_version));
    ("endianness", mkEntry 0 0 Unsafe (FValue f_endianness));
    ("outputname", mkEntry 0 0 Unsafe (FValue f_outputname));
    ("fileexists", mkEntry 1 1 Safe (FValue f_fileexists));
    ("filesize", mkEntry 1 1 ConditionalUnsafe (FValue f_filesize));
    ("tostring", mkEntry 1 1 Safe (FValue f_tostring));
    ("tohex", mkEntry 1 2 Safe (FValue f_tohex));
    ("int", mkEntry 1 1 Safe (FValue f_int));
    ("float", mkEntry 1 1 Safe (FValue f_float));
    ("frac", mkEntry 1 1 Safe (FValue f_frac));
    ("abs", mkEntry 1 1 Safe (FValue f_abs));
    ("round", mkEntry 1 1 Safe (FValue f_round));
    ("min", mkEntry 1 256 Safe (FValue f_min));
    ("max", mkEntry 1 256 Safe (FValue f_max));
    ("strlen", mkEntry 1 1 Safe (FValue f_strlen));
    ("substr", mkEntry 3 3 Safe (FValue f_substr));
    ("regex_match", mkEntry 2 2 Safe (FValue (f_regex h_rx_match)));
    ("regex_search", mkEntry 2 2 Safe (FValue (f_regex h_rx_search)));
    ("regex_extract", mkEntry 2 3 Safe (FValue f_regex_extract));
    ("find", mkEntry 2 3 Safe (FValue f_find));
    ("rfind", mkEntry 2 3 Safe (FValue f_rfind));
    ("readbyte", mkEntry 1 2 ConditionalUnsafe (FValue (f_read 1 (fun z => z))));
    ("readu8", mkEntry 1 2 ConditionalUnsafe (FValue (f_read 1 (fun z => z))));
    ("readu16", mkEntry 1 2 ConditionalUnsafe (FValue (f_read 2 (fun z => z))));
    ("readu32", mkEntry 1 2 ConditionalUnsafe (FValue (f_read 4 (fun z => z))));
    ("readu64", mkEntry 1 2 ConditionalUnsafe (FValue (f_read 8 s64)));
    ("reads8", mkEntry 1 2 ConditionalUnsafe (FValue (f_read 1 s8)));
    ("reads16", mkEntry 1 2 ConditionalUnsafe (FValue (f_read 2 s16)));
    ("reads32", mkEntry 1 2 ConditionalUnsafe (FValue (f_read 4 s32)));
    ("reads64", mkEntry 1 2 ConditionalUnsafe (FValue (f_read 8 s64)));
    ("readascii", mkEntry 1 3 ConditionalUnsafe (FValue f_readascii));
    ("defined", mkEntry 1 1 Unsafe (FLabel f_defined));
    ("org", mkEntry 0 1 Unsafe (FLabel f_org));
    ("orga", mkEntry 0 1 Unsafe (FLabel f_orga));
    ("headersize", mkEntry 0 1 Unsafe (FLabel f_headersize)) ])%string.

(** mipsExpressionFunctions (28-31) and armExpressionFunctions (24-27). *)
Definition mips_functions : list (string * func_entry) :=
  ([ ("lo", mkEntry 1 1 Safe (FValue f_lo)); ("hi", mkEntry 1 1 Safe (FValue f_hi)) ])%string.
Definition arm_functions : list (string * func_entry) :=
  ([ ("isarm", mkEntry 0 0 Safe (FValue f_isarm)); ("isthumb", mkEntry 0 0 Safe (FValue f_isthumb)) ])%string.

(** A function defined with .definefunction (addUserFunction, ExpressionFunctionHandler.cpp 115-180):
    always [Unsafe], arity = number of parameters. *)
Definition user_entry (arity : nat) (f : estate -> list value -> outcome value) : func_entry :=
  mkEntry arity arity Unsafe (FUser f).

(** First registration of a name wins (registerEntry, ExpressionFunctionHandler.cpp 48-56:
    std::map::emplace). *)
Fixpoint lookup (l : list (string * func_entry)) (n : string) : option func_entry :=
  match l with
  | [] => None
  | (k, e) :: t => if String.eqb k n then Some e else lookup t n
  end.

(** Registry with the functions of one architecture and some user functions. *)
Definition make_registry (arch : list (string * func_entry))
    (users : list (string * (nat * (estate -> list value -> outcome value)))) : registry :=
  lookup (builtin_functions ++ arch ++ map (fun '(n, (a, f)) => (n, user_entry a f)) users).
