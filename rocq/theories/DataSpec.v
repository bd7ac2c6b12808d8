(** What a data directive stands for: the bytes of each argument, in order. *)

Require Import ZArith List Bool String Ascii.
Require Import Floats.SpecFloat.
From Verif Require Import ExprModel BytesSpec TableSpec FloatSpec FloatModel.
Import ListNotations.
Local Open Scope Z_scope.

(** The directives: integers of 1, 2, 4 or 8 bytes, floats, doubles, text with a table. *)
Inductive kind := Integers (n : nat) | Singles | Doubles | Text (h : entries).

Definition characters (s : string) : list Z := map (fun c => Z.of_nat (nat_of_ascii c)) (list_ascii_of_string s).

(** An argument and the bytes it stands for.  A float number among integers must have the size of
    the unit; a NaN has no definite bytes. *)
Inductive emits (big : bool) : kind -> value -> list Z -> Prop :=
| em_int : forall n i, emits big (Integers n) (VInt i) (encode_bytes big n i)
| em_string : forall n s, Forall (fun c => c < 128) (characters s) ->
    emits big (Integers n) (VStr s) (flat_map (encode_bytes big n) (characters s))
| em_int_single : forall f b, f <> S754_nan -> single b = to_single f -> emits big (Integers 4) (VFloat f) (encode_bytes big 4 b)
| em_int_double : forall f b, f <> S754_nan -> double b = f -> emits big (Integers 8) (VFloat f) (encode_bytes big 8 b)
| em_single : forall f b, f <> S754_nan -> single b = to_single f -> emits big Singles (VFloat f) (encode_bytes big 4 b)
| em_single_int : forall i b, single b = int_to_single i -> emits big Singles (VInt i) (encode_bytes big 4 b)
| em_double : forall f b, f <> S754_nan -> double b = f -> emits big Doubles (VFloat f) (encode_bytes big 8 b)
| em_double_int : forall i b, double b = int_to_double i -> emits big Doubles (VInt i) (encode_bytes big 8 b)
| em_text_int : forall h i, emits big (Text h) (VInt i) [i mod 256]
| em_text : forall h s out, encodes h (characters s) out -> (out = [] -> s = EmptyString) -> emits big (Text h) (VStr s) out.

(** A list of arguments. *)
Inductive emits_all (big : bool) (k : kind) : list value -> list Z -> Prop :=
| ea_nil : emits_all big k [] []
| ea_cons : forall v b l r, emits big k v b -> emits_all big k l r -> emits_all big k (v :: l) (b ++ r).

(** Values of double precision. *)
Definition is_double (v : value) : Prop := match v with VFloat f => valid_binary 53 1024 f = true /\ f <> S754_nan | _ => True end.
