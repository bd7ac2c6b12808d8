(** Model of the conversion of one source line to tokens: FileTokenizer in Parser/Tokenizer.cpp,
    and stringToInt of Util/Util.cpp.

    Simplifications: a single line is tokenized as if it were the last of the input, so a block
    comment that is not closed on the line is not closed at all, and a trailing "equ" does not reach
    over to the next line (TokModel has whole files).  createToken (Tokenizer.cpp 337-385) takes
    substr at linePos, which throws std::out_of_range when linePos is beyond the line; nothing
    catches it, and this is RUb here.  isalnum and tolower are those of the "C" locale; for bytes
    above 127 they are taken to be false / the identity.  [strtod] is a parameter. *)

Require Import ZArith List String Ascii Bool.
From Coq Require Import Floats.SpecFloat.
From Verif Require Import Ints Res ExprModel ParseModel.
Import ListNotations.
Local Open Scope char_scope.

Definition code (c : ascii) : Z := Z.of_N (N_of_ascii c).
Definition between (lo hi : ascii) (c : ascii) : bool := ((code lo <=? code c) && (code c <=? code hi))%Z.
Definition is_digit (c : ascii) : bool := between "0" "9" c.
Definition is_upper (c : ascii) : bool := between "A" "Z" c.
Definition is_lower (c : ascii) : bool := between "a" "z" c.
Definition is_alnum (c : ascii) : bool := is_digit c || is_upper c || is_lower c.
(** tolower *)
Definition lower (c : ascii) : ascii :=
  if is_upper c then ascii_of_nat (nat_of_ascii c + 32) else c.
Fixpoint lower_string (s : string) : string :=
  match s with EmptyString => EmptyString | String c r => String (lower c) (lower_string r) end.

(** std::string::operator[]: index size() gives '\0', larger indices are undefined. *)
Definition char_at (s : string) (i : nat) : res ascii :=
  match String.get i s with
  | Some c => ROk c
  | None => if Nat.eqb i (String.length s) then ROk "000" else RUb
  end.

(** ** stringToInt, Util/Util.cpp 51-104 *)

(** The loop of 91-101 over the digits: None is "return false"; the accumulation is done in
    int64_t, so leaving its range is undefined. *)
Definition digit_value (c : ascii) : Z :=
  let l := code (lower c) in if (97 <=? l)%Z then (l - 97 + 10)%Z else (l - 48)%Z.
Fixpoint convert_digits (base acc : Z) (s : string) : res (option Z) :=
  match s with
  | EmptyString => ROk (Some acc)
  | String c r =>
      let v := digit_value c in
      if (base <=? v)%Z then ROk None
      else if in_int64 (acc * base) && in_int64 (acc * base + v)
           then convert_digits base (acc * base + v) r
           else RUb
  end.

(** Lines 53-87: base and bounds [start], [end] of the digits. *)
Definition string_to_int (line : string) (start stop : nat) : res (option Z) :=
  do c0 <- char_at line start;
  do c1 <- (if Ascii.eqb c0 "0" then char_at line (start + 1) else ROk "000");
  do cl <- char_at line (stop - 1);
  let c1 := lower c1 in
  let cl := lower cl in
  let '(base, start) :=
    if Ascii.eqb c0 "0" then
      if Ascii.eqb c1 "x" then (16%Z, start + 2)%nat
      else if Ascii.eqb c1 "o" then (8%Z, start + 2)%nat
      else if Ascii.eqb c1 "b" && negb (Ascii.eqb cl "h") then (2%Z, start + 2)%nat
      else (10%Z, start)
    else (10%Z, start) in
  let '(base, stop) :=
    if (base =? 10)%Z then
      if Ascii.eqb cl "h" then (16%Z, stop - 1)%nat
      else if Ascii.eqb cl "b" then (2%Z, stop - 1)%nat
      else if Ascii.eqb cl "o" then (8%Z, stop - 1)%nat
      else (base, stop)
    else (base, stop) in
  convert_digits base 0 (String.substring start (stop - start) line).

(** ** Scanning *)

(** isWhitespace 263-269, isComment 271-280, isBlockComment 290-292, isBlockCommentEnd 294-296 *)
Definition is_space (c : ascii) : bool := Ascii.eqb c " " || Ascii.eqb c "009".
Definition is_comment (s : string) : bool :=
  match s with
  | String ";" _ => true
  | String "/" (String "/" _) => true
  | _ => false
  end.

(** Search for the end of a block comment, 304-320; None: not closed on this line. *)
Fixpoint skip_block (s : string) : option string :=
  match s with
  | String "*" (String "/" r) => Some r
  | String _ r => skip_block r
  | EmptyString => None
  end.

(** skipWhitespace, 298-334; the flag says that a block comment was not closed, and the text is
    then that of the comment. *)
Fixpoint skip_white (fuel : nat) (s : string) : string * bool :=
  match fuel with
  | O => (s, false)
  | S k =>
      match s with
      | EmptyString => (s, false)
      | String c r =>
          if is_space c then skip_white k r
          else if is_comment s then (EmptyString, false)
          else match s with
               | String "/" (String "*" r) =>
                   match skip_block r with
                   | Some r' => skip_white k r'
                   | None => (r, true)
                   end
               | _ => (s, false)
               end
      end
  end.

(** parseOperator, 403-512 *)
Definition lex_operator (s : string) : option (token * string) :=
  match s with
  | String "(" r => Some (TLParen, r)
  | String ")" r => Some (TRParen, r)
  | String "+" r => Some (TPlus, r)
  | String "-" r => Some (TMinus, r)
  | String "*" r => Some (TMult, r)
  | String "/" r => Some (TDiv, r)
  | String "%" r => Some (TMod, r)
  | String "^" r => Some (TCaret, r)
  | String "~" r => Some (TTilde, r)
  | String "<" (String "<" r) => Some (TLeftShift, r)
  | String "<" (String "=" r) => Some (TLessEqual, r)
  | String "<" r => Some (TLess, r)
  | String ">" (String ">" r) => Some (TRightShift, r)
  | String ">" (String "=" r) => Some (TGreaterEqual, r)
  | String ">" r => Some (TGreater, r)
  | String "=" (String "=" r) => Some (TEqual, r)
  | String "=" r => Some (TAssign, r)
  | String "!" (String "=" r) => Some (TNotEqual, r)
  | String "!" r => Some (TExclamation, r)
  | String "&" (String "&" r) => Some (TLogAnd, r)
  | String "&" r => Some (TBitAnd, r)
  | String "|" (String "|" r) => Some (TLogOr, r)
  | String "|" r => Some (TBitOr, r)
  | String "?" r => Some (TQuestion, r)
  | String ":" (String ":" r) => Some (TSeparator, r)
  | String ":" r => Some (TColon, r)
  | String "," r => Some (TComma, r)
  | String "[" r => Some (TLBrack, r)
  | String "]" r => Some (TRBrack, r)
  | String "#" r => Some (THash, r)
  | String "{" r => Some (TLBrace, r)
  | String "}" r => Some (TRBrace, r)
  | String "$" r => Some (TDollar, r)
  | String "194" (String "176" r) => Some (TDegree, r)
  | _ => None
  end.

(** decodeUtf8Character, 17-39: value and remaining text.  [int value = source[index]] is signed. *)
Definition scode (c : ascii) : Z := s8 (code c).
Definition decode_utf8 (s : string) : res (Z * string) :=
  do c <- char_at s 0;
  let v := scode c in
  let after (n : nat) := String.substring n (String.length s - n) s in
  if (Z.land v 224 =? 192)%Z then
    do b1 <- char_at s 1;
    ROk (Z.lor (Z.shiftl (Z.land v 31) 6) (Z.land (scode b1) 63), after 2)
  else if (Z.land v 240 =? 224)%Z then
    do b1 <- char_at s 1;
    do b2 <- char_at s 2;
    ROk (Z.lor (Z.shiftl (Z.lor (Z.shiftl (Z.land v 15) 6) (Z.land (scode b1) 63)) 6)
               (Z.land (scode b2) 63), after 3)
  else ROk (u32 v, after 1).

(** The number of bytes that decodeUtf8Character advances over. *)
Definition decode_length (s : string) : nat :=
  match s with
  | String c _ =>
      if (Z.land (scode c) 224 =? 192)%Z then 2
      else if (Z.land (scode c) 240 =? 224)%Z then 3 else 1
  | EmptyString => 1
  end.

(** Body of a string constant, 561-604, after the opening quote; None: no closing quote. *)
Definition dquote : ascii := "034".
Definition backslash : ascii := "092".
Fixpoint scan_string (s : string) : option (string * string) :=
  match s with
  | EmptyString => None
  | String c r =>
      let plain := if Ascii.eqb c dquote then Some (EmptyString, r)
                   else option_map (fun '(t, r') => (String c t, r')) (scan_string r) in
      if Ascii.eqb c backslash then
        match r with
        | String d r' =>
            if Ascii.eqb d dquote || Ascii.eqb d backslash
            then option_map (fun '(t, r'') => (String d t, r'')) (scan_string r')
            else plain
        | EmptyString => plain
        end
      else plain
  end.

(** The scan of a number, 619-645. *)
Record num_state : Type := mkNum {
  n_hex : bool; n_point : bool; n_exp : bool; n_sign : bool; n_valid : bool }.

Fixpoint scan_number (s : string) (st : num_state) : string * string * num_state :=
  match s with
  | EmptyString => (EmptyString, EmptyString, st)
  | String c r =>
      let continue (st' : num_state) :=
        let '(t, r', st'') := scan_number r st' in (String c t, r', st'') in
      if is_alnum c || Ascii.eqb c "." then
        if Ascii.eqb c "." then
          continue (mkNum (n_hex st) true (n_exp st) (n_sign st)
                          (n_valid st && negb (n_exp st || n_point st)))
        else if Ascii.eqb (lower c) "h" && negb (n_sign st) then
          continue (mkNum true (n_point st) (n_exp st) (n_sign st) (n_valid st))
        else if Ascii.eqb (lower c) "e" && negb (n_hex st) then
          if n_exp st then continue (mkNum (n_hex st) (n_point st) true (n_sign st) false)
          else match r with
               | String g r2 =>
                   if Ascii.eqb g "+" || Ascii.eqb g "-" then
                     let ok := match r2 with String d _ => is_alnum d | EmptyString => false end in
                     let '(t, r', st'') :=
                       scan_number r2 (mkNum (n_hex st) (n_point st) true true (n_valid st && ok)) in
                     (String c (String g t), r', st'')
                   else continue (mkNum (n_hex st) (n_point st) true (n_sign st) (n_valid st))
               | EmptyString => continue (mkNum (n_hex st) (n_point st) true (n_sign st) (n_valid st))
               end
        else continue st
      else (EmptyString, s, st)
  end.

(** SymbolTable::isValidSymbolCharacter, Core/SymbolTable.cpp 139-146 *)
Definition symbol_char (c : ascii) (first : bool) : bool :=
  is_lower c || is_upper c || (negb first && is_digit c)
  || Ascii.eqb c "_" || Ascii.eqb c "." || Ascii.eqb c "@".

(** The scan of an identifier, 681-688. *)
Fixpoint scan_ident (s : string) (first : bool) : string * string :=
  match s with
  | String c r =>
      if symbol_char c first then let '(t, r') := scan_ident r false in (String c t, r')
      else (EmptyString, s)
  | EmptyString => (EmptyString, EmptyString)
  end.

(** The text of an equ value, 540-543: everything up to a comment. *)
Fixpoint scan_equ (s : string) : string * string :=
  if is_comment s then (EmptyString, s)
  else match s with
       | String c r => let '(t, r') := scan_equ r in (String c t, r')
       | EmptyString => (EmptyString, EmptyString)
       end.

Section Lexer.
  Variable strtod : string -> option spec_float.

  (** Lines 607-678. *)
  Definition lex_number (s : string) : res (token * string) :=
    let hex0 := match s with
                | String "0" (String c _) => Ascii.eqb (lower c) "x"
                | _ => false
                end in
    let '(text, rest, st) := scan_number s (mkNum hex0 false false false true) in
    if n_point st || (n_exp st && negb (n_hex st)) then
      if negb (n_valid st) then ROk (TInvalid, rest)
      else match strtod text with
           | Some d => ROk (TFloat d, rest)
           | None => ROk (TNumberString text, rest)
           end
    else
      do v <- string_to_int s 0 (String.length text);
      match v with
      | Some z => ROk (TInt z, rest)
      | None => ROk (TNumberString text, rest)
      end.

  (** loadToken, 529-716, at a non-empty text that does not start with white space; the flag is
      equActive afterwards. *)
  Definition lex_token (equ : bool) (s : string) : res (token * string * bool) :=
    if equ then let '(t, r) := scan_equ s in ROk (TEquValue t, r, false)
    else
    match lex_operator s with
    | Some (t, r) => ROk (t, r, false)
    | None =>
        match s with
        | EmptyString => ROk (TInvalid, EmptyString, false)
        | String c r =>
            (* character constants, 554-564; on failure the character falls through to the
               identifier scan, which makes it an Invalid token *)
            let invalid_char :=
              do d <- decode_utf8 s; let '(_, r') := d in
              if (String.length s <? decode_length s)%nat then RUb
              else ROk (TInvalid, r', false) in
            if Ascii.eqb c "'" then
              match r with
              | EmptyString => RUb
              | _ =>
                do d <- decode_utf8 r;
                let '(v, r') := d in
                (* the character after the constant is read even past the end of the line *)
                if negb (String.eqb r' EmptyString) || (decode_length r =? String.length r)%nat then
                match r' with
                | String "'" r'' => ROk (TInt v, r'', false)
                | _ => invalid_char
                end
                else RUb
              end
            else if Ascii.eqb c dquote then
              match scan_string r with
              | Some (t, r') => ROk (TStr t, r', false)
              | None => ROk (TInvalid, EmptyString, false)
              end
            else if is_digit c then do x <- lex_number s; let '(t, r') := x in ROk (t, r', false)
            else
              match scan_ident s true with
              | (EmptyString, _) => invalid_char
              | (text, r') =>
                  let text := lower_string text in
                  if String.eqb text "equ" then ROk (TEqu, r', true) else ROk (TIdent text, r', false)
              end
        end
    end.

  (** The loop of init, 733-771, on one line. *)
  Fixpoint lex_line (fuel : nat) (equ : bool) (s : string) : res (list token) :=
    match fuel with
    | O => RErr
    | S k =>
        let '(s, unclosed) := skip_white (String.length s) s in
        (* createToken at 321 is given linePos as the length, so the Separator of 776 is created
           beyond the line *)
        if unclosed then RUb
        else
        match s with
        | EmptyString => ROk [TSeparator]
        | String c r =>
            if Ascii.eqb c backslash then
              let '(r, unclosed) := skip_white (String.length r) r in
              if unclosed then (if String.eqb r EmptyString then RUb else ROk [TInvalid])
              else match r with
                   | EmptyString => ROk []
                   | _ => do ts <- lex_line k equ r; ROk (TInvalid :: ts)
                   end
            else
              do x <- lex_token equ s;
              let '(t, r, equ) := x in
              do ts <- lex_line k equ r; ROk (t :: ts)
        end
    end.

  Definition tokenize (line : string) : res (list token) :=
    lex_line (String.length line + 1) false line.
End Lexer.
