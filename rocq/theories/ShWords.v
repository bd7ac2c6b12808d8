(** SuperH instructions: every halfword against the assembler's table. *)

Require Import ZArith Lia Bool List String Ascii.
Require Import ZifyBool.
Require Import Verif.Ints Verif.IntsLemmas Verif.BitFields Verif.Res Verif.ShTable Verif.ShModel Verif.ShSpec Verif.ShProofs.
Import ListNotations.
Local Open Scope string_scope.
Local Open Scope list_scope.
Local Open Scope Z_scope.

(** Texts with the number left open. *)
Definition hole : shp := SExpr false (Some 1).
Definition prepared : list (sh_opcode * list sh_item) := Eval vm_compute in map (fun o => (o, row_items o)) shOpcodes.
Lemma prepared_eq : prepared = map (fun o => (o, row_items o)) shOpcodes.
Proof. vm_compute. reflexivity. Qed.
Fixpoint parse_prepared (name : string) (ps : list shp) (t : list (sh_opcode * list sh_item)) : option (sh_opcode * sh_inst) :=
  match t with
  | [] => None
  | (o, its) :: t =>
    match decodeOpcode (sh_name o) name ps with
    | Some r => match parse_items its sh_fresh r with Some i => Some (o, i) | None => parse_prepared name ps t end
    | None => parse_prepared name ps t
    end
  end.
Lemma parse_prepared_eq name ps t : parse_prepared name ps (map (fun o => (o, row_items o)) t) = parse_rows name ps t.
Proof.
  induction t as [|o t IH]; [reflexivity|]. cbn [map parse_prepared parse_rows]. unfold parse_row. rewrite IH.
  destruct (decodeOpcode (sh_name o) name ps); reflexivity.
Qed.
Definition as_piece (h : shp) (x : sym) : shp :=
  match x with
  | Register n => SName (reg_name n) None
  | AtRegister n => SName ("@" ++ reg_name n) None
  | At => SName "@" None
  | Word s => SName s None
  | Char c => SSym c
  | Number _ => h
  end.
Definition numeral_of (syms : list sym) : option numeral :=
  match find (fun x => match x with Number _ => true | _ => false end) syms with Some (Number n) => Some n | _ => None end.
Definition before (x : instr) : string * list shp :=
  match cut (fst x) with
  | (a, None) => (a, [])
  | (a, Some b) => (a, [SSym "/"; SName b None])
  end.
Definition field_of (b : Z) (n : numeral) : Z :=
  match n with Field _ _ d | Target _ d | Distance _ d => d | Branch d => d mod 2 ^ b end.
Definition hole_ok (w : Z) (x : instr) (syms : list sym) : bool :=
  let (name, pre) := before x in
  match parse_prepared name (pre ++ map (as_piece hole) syms) prepared with
  | Some (o, i) =>
    match sh_imm i, numeral_of syms with
    | None, None => sh_encode o (sh_grs i) (sh_grt i) 0 =? w
    | Some (b, Some _), Some n =>
      let v := field_of b n in
      (sh_encode o (sh_grs i) (sh_grt i) v =? w) && (0 <=? v) && (v <? 2 ^ b) && numeral_eqb (kind o b v) n &&
      (match n with Branch d => furthest_back x || negb (d =? - 2 ^ (b - 1)) | _ => true end) &&
      (match imm_bits (row_items o) with Some b' => b =? b' | None => false end)
    | _, _ => false
    end
  | None => false
  end.
Definition starts_plain (syms : list sym) : bool := match syms with Char c :: _ => negb (Ascii.eqb c "/") | _ => true end.
Definition is_number (x : sym) : bool := match x with Number _ => true | _ => false end.
Definition closes (syms : list sym) : bool :=
  match syms with [] => true | Char c :: _ => Ascii.eqb c "," || Ascii.eqb c ")" | _ => false end.
Fixpoint one_number (syms : list sym) : bool :=
  match syms with
  | [] => true
  | Number _ :: r => closes r && negb (existsb is_number r)
  | _ :: r => one_number r
  end.
Definition word_ok (w : Z) : bool :=
  match sh_decode w with
  | None => true
  | Some x => forallb (fun syms => starts_plain syms && one_number syms && hole_ok w x syms) (spelled (snd x))
  end.
Lemma square_in f : forallb (fun a => forallb (fun b => f (a * 256 + b)) (upto 256)) (upto 256) = true -> forall w, 0 <= w < 65536 -> f w = true.
Proof.
  intros K w R. pose proof (forallb_in _ _ _ (w / 256) K) as K1. cbv beta in K1.
  pose proof (forallb_in _ _ _ (w mod 256) (K1 (in_upto 256 (w / 256) ltac:(Z.div_mod_to_equations; lia)))) as K2. cbv beta in K2.
  replace (w / 256 * 256 + w mod 256) with w in K2 by (Z.div_mod_to_equations; lia).
  apply K2. apply in_upto. Z.div_mod_to_equations; lia.
Qed.
Lemma words_ok : forallb (fun a => forallb (fun b => word_ok (a * 256 + b)) (upto 256)) (upto 256) = true.
Proof. vm_compute. reflexivity. Qed.
Lemma word_is_ok w : 0 <= w < 65536 -> word_ok w = true.
Proof. exact (square_in word_ok words_ok w). Qed.
