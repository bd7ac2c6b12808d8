(** What was announced.  Histories are read from the latest event backwards. *)

Require Import ZArith List Bool String.
From Verif Require Import SymfileModel.
Import ListNotations.
Local Open Scope Z_scope.

Fixpoint enabled (h : list sym_op) : bool :=
  match h with
  | [] => true
  | SEnabled b :: _ => b
  | _ :: h => enabled h
  end.

(** The file whose module is open; None: the module of everything else. *)
Fixpoint open_module (h : list sym_op) : option nat :=
  match h with
  | [] => None
  | SStartModule f :: _ => Some f
  | SEndModule f :: h => match open_module h with
                         | Some g => if Nat.eqb f g then None else Some g
                         | None => None
                         end
  | _ :: h => open_module h
  end.

(** A label (data) announced while [f] was the open module and output was enabled. *)
Definition label_of (f : option nat) (a : Z) (n : string) (h : list sym_op) : Prop :=
  exists after before, h = after ++ SLabel a n :: before /\ open_module before = f /\ enabled before = true.
Definition data_of (f : option nat) (d : Z * Z * data_type) (h : list sym_op) : Prop :=
  exists after before, h = after ++ (let '(a, n, t) := d in SData a n t) :: before /\ open_module before = f /\ enabled before = true.

(** Functions of a history in order: each start, with the distance to the notification that closes
    it (an end, or the start of the next function). *)
Fixpoint close (ops : list sym_op) : option Z :=
  match ops with
  | [] => None
  | SStart b :: _ => Some b
  | SEnd b :: _ => Some b
  | _ :: ops => close ops
  end.
Fixpoint functions (ops : list sym_op) : list (Z * Z) :=
  match ops with
  | [] => []
  | SStart a :: ops =>
      (a, match close ops with Some b => (b - a) mod 2 ^ 64 | None => 0 end) :: functions ops
  | _ :: ops => functions ops
  end.

Definition module_free (ops : list sym_op) : Prop := forall f, ~ In (SStartModule f) ops /\ ~ In (SEndModule f) ops.

(** Ascending by address, then by text in the order of the bytes. *)
Definition text_le (x y : string) : Prop := String.leb x y = true.
Definition entry_le (x y : Z * string) : Prop := fst x < fst y \/ (fst x = fst y /\ text_le (snd x) (snd y)).

(** The size of the only function that starts at an address; zero when there is none. *)
Definition size_at (fs : list (Z * Z)) (a : Z) : Z :=
  match filter (fun f => fst f =? a) fs with [(_, z)] => z | _ => 0 end.

(** Lines of the file: the name, from version 2 with the size of the function, in version 1 in
    lower case; data with kind and size. *)
Definition label_line (hex8 : Z -> string) (lower : string -> string) (version : Z) (fs : list (Z * Z)) (l : Z * string) : Z * string :=
  let size := size_at fs (fst l) in
  (fst l,
   if version =? 1 then lower (snd l)
   else if (2 <=? version) && (0 <? size) then (snd l ++ "," ++ hex8 size)%string
   else snd l).
Definition data_line (hex4 : Z -> string) (d : Z * Z * data_type) : Z * string :=
  match d with
  | (a, n, Data8) => (a, (".byt:" ++ hex4 n)%string)
  | (a, n, Data16) => (a, (".wrd:" ++ hex4 n)%string)
  | (a, n, Data32) | (a, n, Data64) => (a, (".dbl:" ++ hex4 n)%string)
  | (a, n, DataAscii) => (a, (".asc:" ++ hex4 n)%string)
  end.
