(** What the command line says, independently of how it is read. *)

Require Import ZArith List String Ascii Bool.
Import ListNotations.
Local Open Scope string_scope.

(** What can be given on a command line. *)
Inductive item :=
| Temp (file : string) | Sym (file : string) | Sym2 (file : string) | Root (dir : string)
| Equ (name value : string) | StrEqu (name value : string) | DefineLabel (name value : string)
| ErrorOnWarning | Stat | Time
| Input (file : string).

(** How an option is written. *)
Definition words (i : item) : list string :=
  match i with
  | Temp f => ["-temp"; f] | Sym f => ["-sym"; f] | Sym2 f => ["-sym2"; f] | Root d => ["-root"; d]
  | Equ n v => ["-equ"; n; v] | StrEqu n v => ["-strequ"; n; v] | DefineLabel n v => ["-definelabel"; n; v]
  | ErrorOnWarning => ["-erroronwarning"] | Stat => ["-stat"] | Time => ["-time"]
  | Input f => [f]
  end.
Definition is_input (i : item) : Prop := match i with Input _ => True | _ => False end.
Definition dashed (s : string) : Prop := match s with String c _ => c = "-"%char | EmptyString => False end.
(** How a list of items is written: options and files in any order; after [--] only files. *)
Inductive written : bool -> list item -> list string -> Prop :=
| written_none o : written o [] []
| written_option i l ws : ~ is_input i -> written true l ws -> written true (i :: l) (words i ++ ws)
| written_file o f l ws : o = false \/ ~ dashed f -> written o l ws -> written o (Input f :: l) (f :: ws)
| written_dashes l ws : written false l ws -> written true l ("--" :: ws).

(** ** What the items mean, taken together *)
Definition pick {A} (f : item -> option A) (l : list item) : list A := flat_map (fun i => match f i with Some x => [x] | None => [] end) l.
(** Of several the last one counts. *)
Definition final {A} (f : item -> option A) (d : A) (l : list item) : A := last (pick f l) d.
Definition temp_of (i : item) : option string := match i with Temp f => Some f | _ => None end.
Definition sym_of (i : item) : option (string * Z) := match i with Sym f => Some (f, 1%Z) | Sym2 f => Some (f, 2%Z) | _ => None end.
Definition root_of (i : item) : option string := match i with Root d => Some d | _ => None end.
Definition input_of (i : item) : option string := match i with Input f => Some f | _ => None end.
(** -strequ stands for the value in quotes. *)
Definition equ_of (i : item) : option (string * string) :=
  match i with Equ n v => Some (n, v) | StrEqu n v => Some (n, String "034" (v ++ String "034" EmptyString)) | _ => None end.
Definition label_of (i : item) : option (string * string) := match i with DefineLabel n v => Some (n, v) | _ => None end.
Definition strict_of (i : item) : option bool := match i with ErrorOnWarning => Some true | _ => None end.
Definition stat_of (i : item) : option bool := match i with Stat => Some true | _ => None end.
(** One directory after the other. *)
Inductive directory (chdir : string -> string -> option string) : string -> list string -> string -> Prop :=
| dir_none d : directory chdir d [] d
| dir_more d x d1 l d2 : chdir d x = Some d1 -> directory chdir d1 l d2 -> directory chdir d (x :: l) d2.

(** A value that is a whole: not empty, no space or backslash in front, nothing a comment could start with. *)
Fixpoint no_comment (s : string) : Prop :=
  match s with EmptyString => True | String c r => c <> ";"%char /\ c <> "/"%char /\ no_comment r end.
Definition equ_value (v : string) : Prop :=
  (match v with String c _ => c <> "\"%char | EmptyString => False end) /\
  (match v with String c _ => (Ascii.eqb c " " || Ascii.eqb c "009")%bool = false | EmptyString => True end) /\ no_comment v.
