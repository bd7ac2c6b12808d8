(** Which expression trees survive printing and re-parsing. *)

Require Import ZArith List String Ascii Bool.
From Verif Require Import Ints ExprModel ParseModel.
Import ListNotations.
Local Open Scope char_scope.

(** A name the tokenizer produces: letters in lower case, digits (not first), '_', '.' and '@',
    not the keyword "equ" and not "." (which is the current address). *)
Definition name_char (first : bool) (c : ascii) : Prop :=
  (exists i, 97 <= i < 123 /\ c = ascii_of_nat i)%nat \/
  (first = false /\ exists i, 48 <= i < 58 /\ c = ascii_of_nat i)%nat \/
  c = "_" \/ c = "." \/ c = "@".
Fixpoint name_chars (first : bool) (s : string) : Prop :=
  match s with EmptyString => True | String c r => name_char first c /\ name_chars false r end.
Definition proper_name (n : string) : Prop :=
  n <> EmptyString /\ name_chars true n /\ n <> "equ"%string /\ n <> "."%string.

(** A string that needs no escape sequence. *)
Fixpoint plain_string (s : string) : Prop :=
  match s with
  | EmptyString => True
  | String c r => c <> "034" /\ c <> "092" /\ plain_string r
  end.

Definition negative_constant (e : expr) : Prop :=
  match e with EInt z => (z < 0)%Z | _ => False end.

(** No negative constant anywhere: the value of the degree operator is the text of its operand, and
    a negative constant is printed as "-5" but read back as the negation of 5, printed "(-5)". *)
Fixpoint no_negative (e : expr) : Prop :=
  match e with
  | EInt z => (0 <= z)%Z
  | EUn _ a | EToString a => no_negative a
  | EBin _ a b => no_negative a /\ no_negative b
  | ECond c a b => no_negative c /\ no_negative a /\ no_negative b
  | _ => True
  end.

(** Trees without floats, calls, strings that need escaping, the smallest integer, and unary
    operators applied to a negative constant (which folding never leaves behind). *)
Fixpoint printable (file section : Z) (e : expr) : Prop :=
  match e with
  | EInt z => (int64_min < z <= int64_max)%Z
  | EIdent n f s => proper_name n /\ f = file /\ s = section
  | EStr s => plain_string s
  | EPos => True
  | EUn _ a => printable file section a /\ ~ negative_constant a
  | EToString a => printable file section a /\ no_negative a
  | EBin _ a b => printable file section a /\ printable file section b
  | ECond c a b => printable file section c /\ printable file section a /\ printable file section b
  | EInvalid | EFloat _ | ECall _ _ => False
  end.

(** Text after which a printed expression may be spliced in front. *)
Definition separated (rest : string) : Prop :=
  match rest with
  | EmptyString => True
  | String c _ => c = " " \/ c = "," \/ c = ")"
  end.
