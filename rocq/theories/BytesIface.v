(** The operations of [BytesSpec] performed by the code. *)

Require Import ZArith List.
From Verif Require Import Ints Res BytesModel BytesSpec.
Import ListNotations.

Definition perform (o : op) (b : buffer) : res buffer :=
  match o with
  | Append l => append b (map Some l)
  | AppendSelf => append b (contents b)
  | Reserve n v => reserve_bytes b n v
  | AlignSize n => align_size b n
  | Resize n => ROk (resize b n)
  | Clear => ROk (clear b)
  | ReplaceBytes pos l => replace_bytes b pos l
  | ReplaceWord pos w big => replace_word b pos w big
  | ReplaceDword pos w big => replace_dword b pos w big
  | Mid start n => mid b start (Z.of_nat n)
  | MidToEnd start => mid b start (-1)
  | Left n => left b n
  | Right n => right b n
  end.

(** Some history of allowed operations leads from the empty buffer to [b]; [s] is what the
    specification says it holds. *)
Inductive reached : buffer -> list (option Z) -> Prop :=
| reached_nil : reached empty_buffer []
| reached_op : forall b s o b', reached b s -> allowed o s -> perform o b = ROk b' ->
    reached b' (spec o s).

(** [c] has the length of [s], and its bytes wherever [s] specifies them. *)
Definition agrees (c s : list (option Z)) : Prop := Forall2 (fun x y => y = None \/ x = y) c s.
