(** Operands of the vector unit: prefixes, constants and rotations (vpfxs, vpfxt, vpfxd, vcst, vrot).

    Files: Archs/MIPS/MipsParser.cpp (parseVcstParameter 629-739, parseVfpuVrot 741-848, parseVpfxsParameter 876-974,
    parseVpfxdParameter 976-1041), Parser/Parser.cpp (TokenSequenceParser 898-954).

    Simplified: behind the last token of the list nothing matches.  What a failing function leaves in [result] is not kept. *)

Require Import ZArith Bool List String Ascii.
From Verif Require Import Ints ParseModel.
Import ListNotations.
Local Open Scope string_scope.
Local Open Scope list_scope.
Local Open Scope Z_scope.

(** ** TokenSequenceParser *)
(** The types of tokens that occur in sequences; TokenSequenceValue, Parser.h 123-151. *)
Inductive ttype := YIdent | YInt | YFloat | YLParen | YRParen | YLBrack | YRBrack | YDiv | YMult | YColon | YMinus.
Inductive tvalue := WText (s : string) | WInt (z : Z) | WFloat.
Record entry := mkEntry { en_result : Z; en_types : list ttype; en_values : list tvalue }.
Definition has_type (y : ttype) (t : token) : bool :=
  match y, t with
  | YIdent, TIdent _ | YInt, TInt _ | YFloat, TFloat _ | YLParen, TLParen | YRParen, TRParen | YLBrack, TLBrack | YRBrack, TRBrack
  | YDiv, TDiv | YMult, TMult | YColon, TColon | YMinus, TMinus => true
  | _, _ => false
  end.
(** The inner loop and the test after it, 912-948.  The members of the union are read as the type of the token. *)
Fixpoint seq_entry (types : list ttype) (values : list tvalue) (ts : list token) : option (list token) :=
  match types with
  | [] => match values with [] => Some ts | _ => None end
  | y :: types =>
    match ts with
    | [] => None
    | t :: ts =>
      if negb (has_type y t) then None
      else match y, t with
           | YIdent, TIdent n => match values with WText s :: values => if String.eqb s n then seq_entry types values ts else None | _ => None end
           | YInt, TInt z => match values with WInt x :: values => if x =? z then seq_entry types values ts else None | _ => None end
           | _, _ => seq_entry types values ts
           end
    end
  end.
(** TokenSequenceParser::parse, 904-954 *)
Fixpoint seq_parse (l : list entry) (ts : list token) : option (Z * list token) :=
  match l with
  | [] => None
  | e :: l => match seq_entry (en_types e) (en_values e) ts with Some r => Some (en_result e, r) | None => seq_parse l ts end
  end.

(** ** Constants: parseVcstParameter, 629-739 *)
Definition vcst_entries : list entry :=
  [ mkEntry 1 [YIdent] [WText "maxfloat"];
    mkEntry 2 [YIdent; YLParen; YInt; YRParen] [WText "sqrt"; WInt 2];
    mkEntry 3 [YIdent; YLParen; YInt; YDiv; YInt; YRParen] [WText "sqrt"; WInt 1; WInt 2];
    mkEntry 3 [YIdent; YLParen; YFloat; YRParen] [WText "sqrt"; WFloat];
    mkEntry 4 [YInt; YDiv; YIdent; YLParen; YIdent; YRParen] [WInt 2; WText "sqrt"; WText "pi"];
    mkEntry 5 [YInt; YDiv; YIdent] [WInt 2; WText "pi"];
    mkEntry 6 [YInt; YDiv; YIdent] [WInt 1; WText "pi"];
    mkEntry 7 [YIdent; YDiv; YInt] [WText "pi"; WInt 4];
    mkEntry 8 [YIdent; YDiv; YInt] [WText "pi"; WInt 2];
    mkEntry 16 [YIdent; YDiv; YInt] [WText "pi"; WInt 6];
    mkEntry 9 [YIdent] [WText "pi"];
    mkEntry 10 [YIdent] [WText "e"];
    mkEntry 11 [YIdent; YLParen; YIdent; YRParen] [WText "log2"; WText "e"];
    mkEntry 12 [YIdent; YLParen; YIdent; YRParen] [WText "log10"; WText "e"];
    mkEntry 13 [YIdent; YLParen; YInt; YRParen] [WText "ln"; WInt 2];
    mkEntry 14 [YIdent; YLParen; YInt; YRParen] [WText "ln"; WInt 10];
    mkEntry 15 [YInt; YMult; YIdent] [WInt 2; WText "pi"];
    mkEntry 17 [YIdent; YLParen; YInt; YRParen] [WText "log10"; WInt 2];
    mkEntry 18 [YIdent; YLParen; YInt; YRParen] [WText "log2"; WInt 10];
    mkEntry 19 [YIdent; YLParen; YInt; YRParen; YDiv; YInt] [WText "sqrt"; WInt 3; WInt 2] ].
Definition vcst (ts : list token) : option (Z * list token) := seq_parse vcst_entries ts.

(** ** Rotations: parseVfpuVrot, 741-848; a token comes with the text it was written as *)
Record rot := mkRot { ro_sin : Z; ro_cos : Z; ro_neg : bool; ro_count : Z }.
(** One turn of the loop after the comma, 763-804 *)
Definition vrot_element (i : Z) (x : rot) (ts : list (token * string)) : option (rot * list (token * string)) :=
  let '(neg, ts) := match ts with (TMinus, _) :: ts => (true, ts) | _ => (false, ts) end in
  match ts with
  | (TInt _, text) :: ts => if negb (String.eqb text "0") || neg then None else Some (x, ts)
  | (TIdent "s", _) :: ts =>
    if (negb neg && ro_neg x) || (neg && negb (ro_neg x) && (0 <? ro_count x)) then None
    else Some (mkRot i (ro_cos x) (ro_neg x || neg) (ro_count x + 1), ts)
  | (TIdent "c", _) :: ts => if neg || negb (ro_cos x =? -1) then None else Some (mkRot (ro_sin x) i (ro_neg x) (ro_count x), ts)
  | _ => None
  end.
(** The loop, 752-804, [n] elements from [i] on *)
Fixpoint vrot_elements (n : nat) (i : Z) (x : rot) (ts : list (token * string)) : option (rot * list (token * string)) :=
  match n with
  | O => Some (x, ts)
  | S n =>
    match (if i =? 0 then Some ts else match ts with (TComma, _) :: ts => Some ts | _ => None end) with
    | None => None
    | Some ts => match vrot_element i x ts with None => None | Some (x, ts) => vrot_elements n (i + 1) x ts end
    end
  end.
(** 809-847 *)
Definition vrot_result (size : Z) (x : rot) : option Z :=
  let elems := size + 1 in
  let r := if ro_neg x then 16 else 0 in
  if (ro_sin x =? -1) && (ro_cos x =? -1) then None
  else if ro_sin x =? -1 then
    if elems =? 4 then None else Some (Z.lor (Z.lor r (ro_cos x)) (Z.shiftl elems 2))
  else if ro_cos x =? -1 then
    if elems =? 4 then None
    else if ro_count x =? 1 then Some (Z.lor (Z.lor r elems) (Z.shiftl (ro_sin x) 2))
    else if ro_count x =? elems then Some (Z.lor (Z.lor r elems) (Z.shiftl elems 2))
    else None
  else if 1 <? ro_count x then
    if negb (ro_count x + 1 =? elems) then None else Some (Z.lor (Z.lor r (ro_cos x)) (Z.shiftl (ro_cos x) 2))
  else Some (Z.lor (Z.lor r (ro_cos x)) (Z.shiftl (ro_sin x) 2)).
Definition vrot (size : Z) (ts : list (token * string)) : option (Z * list (token * string)) :=
  match ts with
  | (TLBrack, _) :: ts =>
    match vrot_elements (Z.to_nat (size + 1)) 0 (mkRot (-1) (-1) false 0) ts with
    | Some (x, (TRBrack, _) :: ts) => match vrot_result size x with Some r => Some (r, ts) | None => None end
    | _ => None
    end
  | _ => None
  end.

(** ** Prefixes of sources: parseVpfxsParameter, 876-974 *)
Definition vpfxs_entries : list entry :=
  [ mkEntry 0 [YInt] [WInt 0];
    mkEntry 3 [YInt; YDiv; YInt] [WInt 1; WInt 2];
    mkEntry 5 [YInt; YDiv; YInt] [WInt 1; WInt 3];
    mkEntry 6 [YInt; YDiv; YInt] [WInt 1; WInt 4];
    mkEntry 7 [YInt; YDiv; YInt] [WInt 1; WInt 6];
    mkEntry 1 [YInt] [WInt 1];
    mkEntry 2 [YInt] [WInt 2];
    mkEntry 4 [YInt] [WInt 3] ].
(** strchr in "xyzw", 934-941 *)
Definition vpfx_register (s : string) : option Z :=
  match s with "x" => Some 0 | "y" => Some 1 | "z" => Some 2 | "w" => Some 3 | _ => None end.
(** One turn of the loop after the comma, 912-971 *)
Definition vpfxs_lane (i result : Z) (ts : list token) : option (Z * list token) :=
  let '(result, ts) := match ts with TMinus :: ts => (Z.lor result (Z.shiftl 1 (16 + i)), ts) | _ => (result, ts) end in
  let '(result, abs, ts) := match ts with TBitOr :: ts => (Z.lor result (Z.shiftl 1 (8 + i)), true, ts) | _ => (result, false, ts) end in
  match ts with
  | TIdent s :: ts =>
    match vpfx_register s with
    | None => None
    | Some r =>
      let result := Z.lor result (Z.shiftl r (i * 2)) in
      if abs then match ts with TBitOr :: ts => Some (result, ts) | _ => None end else Some (result, ts)
    end
  | _ =>
    if abs then None
    else
      let result := Z.lor result (Z.shiftl 1 (12 + i)) in
      match seq_parse vpfxs_entries ts with
      | None => None
      | Some (c, ts) =>
        let result := Z.lor result (Z.shiftl (Z.land c 3) (i * 2)) in
        Some (if Z.land c 4 =? 0 then result else Z.lor result (Z.shiftl 1 (8 + i)), ts)
      end
  end.
(** The loop of both prefixes: [n] lanes from [i] on, with commas between them *)
Fixpoint lanes (lane : Z -> Z -> list token -> option (Z * list token)) (n : nat) (i result : Z) (ts : list token) : option (Z * list token) :=
  match n with
  | O => Some (result, ts)
  | S n =>
    match (if i =? 0 then Some ts else match ts with TComma :: ts => Some ts | _ => None end) with
    | None => None
    | Some ts => match lane i result ts with None => None | Some (result, ts) => lanes lane n (i + 1) result ts end
    end
  end.
Definition vpfxs (ts : list token) : option (Z * list token) := lanes vpfxs_lane 4 0 0 ts.

(** ** Prefixes of destinations: parseVpfxdParameter, 976-1041 *)
Definition vpfxd_entries : list entry :=
  [ mkEntry (-1) [YIdent] [WText "m"];
    mkEntry 1 [YLBrack; YInt; YColon; YInt; YRBrack] [WInt 0; WInt 1];
    mkEntry 3 [YLBrack; YMinus; YInt; YColon; YInt; YRBrack] [WInt 1; WInt 1] ].
(** 1010-1037 *)
Definition vpfxd_lane (i result : Z) (ts : list token) : option (Z * list token) :=
  match ts with
  | TComma :: _ => if i <? 3 then Some (result, ts) else None
  | TSeparator :: _ => if i =? 3 then Some (result, ts) else None
  | _ =>
    match seq_parse vpfxd_entries ts with
    | None => None
    | Some (num, ts) => Some (if num <? 0 then Z.lor result (Z.shiftl 1 (8 + i)) else Z.lor result (Z.shiftl num (2 * i)), ts)
    end
  end.
Definition vpfxd (ts : list token) : option (Z * list token) := lanes vpfxd_lane 4 0 0 ts.
