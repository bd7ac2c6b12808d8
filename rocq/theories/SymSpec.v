(** Specification of symbol scoping, independent of the table representation. *)

Require Import ZArith List String Ascii Bool.
Import ListNotations.
Local Open Scope char_scope.

(** A reference to a symbol: spelling, and the file and section it is written in. *)
Record sref := mkRef { r_name : string; r_file : Z; r_section : Z }.

(** Two letters are the same up to case. *)
Definition same_letter (a b : ascii) : Prop :=
  let x := nat_of_ascii a in
  let y := nat_of_ascii b in
  x = y \/ (65 <= x <= 90 /\ y = x + 32) \/ (65 <= y <= 90 /\ x = y + 32).
Inductive same_spelling : string -> string -> Prop :=
| same_empty : same_spelling EmptyString EmptyString
| same_char : forall a b r s, same_letter a b -> same_spelling r s ->
    same_spelling (String a r) (String b s).

(** @@name is local to its section, @name static in its file, anything else global. *)
Inductive scope := Global | Static (file : Z) | Local (section : Z).
Definition scope_of (r : sref) : scope :=
  match r_name r with
  | String "@" (String "@" _) => Local (r_section r)
  | String "@" _ => Static (r_file r)
  | _ => Global
  end.
Definition same_symbol (a b : sref) : Prop :=
  same_spelling (r_name a) (r_name b) /\ scope_of a = scope_of b.

(** Documented form of a name: optional @ or @@, then letters, digits, _ and . not starting with a
    digit. *)
Definition name_start (c : ascii) : Prop :=
  let x := nat_of_ascii c in 65 <= x <= 90 \/ 97 <= x <= 122 \/ c = "_" \/ c = ".".
Definition name_char (c : ascii) : Prop :=
  name_start c \/ 48 <= nat_of_ascii c <= 57.
Fixpoint name_chars (s : string) : Prop :=
  match s with EmptyString => True | String c r => name_char c /\ name_chars r end.
Definition plain_name (s : string) : Prop :=
  match s with String c r => name_start c /\ name_chars r | EmptyString => False end.
Inductive symbol_name : string -> Prop :=
| global_name : forall s, plain_name s -> symbol_name s
| static_name : forall s, plain_name s -> symbol_name (String "@" s)
| local_name : forall s, plain_name s -> symbol_name (String "@" (String "@" s)).

(** What the user does with symbols; [Clear] ends an assembly. *)
Inductive action :=
| Reference (r : sref)             (* a label is mentioned or looked up *)
| Define (r : sref) (v : Z)        (* a label is given a value *)
| DefineEqu (r : sref) (index : nat)  (* an equ is declared, [index] is its replacement *)
| Generate (local : bool)          (* a label name is generated *)
| Clear.

(** The state of one symbol. *)
Inductive symstate :=
| Unknown                          (* never mentioned *)
| IsLabel (value : Z) (defined : bool)
| IsEqu (index : nat).

(** One symbol, seen for itself: only actions on references to the same symbol touch it. *)
Inductive sym_step (r : sref) : symstate -> action -> symstate -> Prop :=
| step_clear : forall s, sym_step r s Clear Unknown
| step_generate : forall s b, sym_step r s (Generate b) s
| step_other : forall s a r', (a = Reference r' \/ (exists v, a = Define r' v) \/ (exists i, a = DefineEqu r' i)) ->
    ~ same_symbol r r' -> sym_step r s a s
| step_ref_new : forall r', same_symbol r r' -> sym_step r Unknown (Reference r') (IsLabel 0 false)
| step_ref : forall s r', same_symbol r r' -> s <> Unknown -> sym_step r s (Reference r') s
| step_def_new : forall r' v, same_symbol r r' -> sym_step r Unknown (Define r' v) (IsLabel v true)
| step_def : forall v0 d r' v, same_symbol r r' -> sym_step r (IsLabel v0 d) (Define r' v) (IsLabel v true)
| step_def_equ : forall i r' v, same_symbol r r' -> sym_step r (IsEqu i) (Define r' v) (IsEqu i)
| step_equ_new : forall r' i, same_symbol r r' -> sym_step r Unknown (DefineEqu r' i) (IsEqu i)
| step_equ : forall s r' i, same_symbol r r' -> s <> Unknown -> sym_step r s (DefineEqu r' i) s.
Inductive sym_history (r : sref) : list action -> symstate -> Prop :=
| history_nil : sym_history r [] Unknown
| history_snoc : forall h a s s', sym_history r h s -> sym_step r s a s' -> sym_history r (h ++ [a]) s'.
