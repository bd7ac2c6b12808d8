(** Conditional assembly as a language has it: blocks, and what they select. *)

Require Import List Bool.
From Verif Require Import CondModel.
Import ListNotations.

Section Blocks.
  Variables env cmd cond : Type.
  Notation condition := (condition env cond).
  Notation effect := (effect env cmd cond).

  (** Well-nested text: statements, constructs with contents, conditionals with any number of further conditions and perhaps an else *)
  Inductive block :=
  | BNil
  | BOther (f : effect) (b : block)
  | BOpen (n : nat) (body b : block)
  | BIf (c : condition) (body : block) (t : tail) (b : block)
  with tail :=
  | LEnd
  | LElse (body : block)
  | LElif (c : condition) (body : block) (t : tail).

  (** As text *)
  Fixpoint text (b : block) : list (stmt env cmd cond) :=
    match b with
    | BNil => []
    | BOther f b => TOther f :: text b
    | BOpen n body b => TOpen n :: text body ++ TClose n :: text b
    | BIf c body t b => TIf c :: text body ++ text_tail t ++ text b
    end
  with text_tail (t : tail) : list (stmt env cmd cond) :=
    match t with
    | LEnd => [TEndif]
    | LElse body => TElse :: text body ++ [TEndif]
    | LElif c body t => TElseif c :: text body ++ text_tail t
    end.

  (** What is assembled: commands, beginnings and ends of constructs *)
  Inductive event := ECmd (c : cmd) | EOpen (n : nat) | EClose (n : nat).
  (** The commands that take part when conditions [k] not known while parsing turn out as [rho k] *)
  Fixpoint events (rho : cond -> bool) (o : out cmd cond) : list event :=
    match o with
    | OCmd c => [ECmd c]
    | ODummy | OInvalid => []
    | OSeq l => flat_map (events rho) l
    | OBlock n l => EOpen n :: flat_map (events rho) l ++ [EClose n]
    | OCond k a b => if rho k then events rho a else match b with Some b => events rho b | None => [] end
    end.

  (** Text that is read but not selected may change the state (see C71): reading a block in a context *)
  Fixpoint pass (i : info) (e : env) (b : block) : env :=
    match b with
    | BNil => e
    | BOther f b => pass i (fst (fst (f i e))) b
    | BOpen n body b => pass i (pass i e body) b
    | BIf c body t b =>
        match c i e with
        | CPOk r _ => pass i (pass_tail (under i (opposite r)) (pass (under i r) e body) t) b
        | _ => e
        end
    end
  with pass_tail (i : info) (e : env) (t : tail) : env :=
    match t with
    | LEnd => e
    | LElse body => pass i e body
    | LElif c body t =>
        match c i e with
        | CPOk r _ => pass_tail (under i (opposite r)) (pass (under i r) e body) t
        | _ => e
        end
    end.

  (** What a block selects: the first branch whose condition holds, at every level.  [u]: within a conditional not known while parsing *)
  Section Select.
    Variable rho : cond -> bool.
    Definition holds (r : cres) (k : cond) : bool := match r with CTrue => true | CFalse => false | CUnknown => rho k end.
    Definition open_question (r : cres) : bool := match r with CUnknown => true | _ => false end.
    Definition given (o : option (out cmd cond)) : list event := match o with Some o => events rho o | None => [] end.

    Fixpoint select (u : bool) (e : env) (b : block) : env * list event :=
      match b with
      | BNil => (e, [])
      | BOther f b => let '(e1, o, _) := f (mkInfo true u) e in let (e2, l) := select u e1 b in (e2, given o ++ l)
      | BOpen n body b => let (e1, l1) := select u e body in let (e2, l2) := select u e1 b in (e2, EOpen n :: l1 ++ EClose n :: l2)
      | BIf c body t b =>
          match c (mkInfo true u) e with
          | CPOk r k =>
              let v := u || open_question r in
              let (e1, l1) := if holds r k
                              then let (e1, l1) := select v e body in (pass_tail (under (mkInfo true u) (opposite r)) e1 t, l1)
                              else select_tail v (pass (under (mkInfo true u) r) e body) t in
              let (e2, l2) := select u e1 b in (e2, l1 ++ l2)
          | _ => (e, [])
          end
      end
    with select_tail (u : bool) (e : env) (t : tail) : env * list event :=
      match t with
      | LEnd => (e, [])
      | LElse body => select u e body
      | LElif c body t =>
          match c (mkInfo true u) e with
          | CPOk r k =>
              let v := u || open_question r in
              if holds r k
              then let (e1, l1) := select v e body in (pass_tail (under (mkInfo true u) (opposite r)) e1 t, l1)
              else select_tail v (pass (under (mkInfo true u) r) e body) t
          | _ => (e, [])
          end
      end.

    (** The same when what is not selected leaves no trace *)
    Fixpoint plain (u : bool) (e : env) (b : block) : env * list event :=
      match b with
      | BNil => (e, [])
      | BOther f b => let '(e1, o, _) := f (mkInfo true u) e in let (e2, l) := plain u e1 b in (e2, given o ++ l)
      | BOpen n body b => let (e1, l1) := plain u e body in let (e2, l2) := plain u e1 b in (e2, EOpen n :: l1 ++ EClose n :: l2)
      | BIf c body t b =>
          match c (mkInfo true u) e with
          | CPOk r k =>
              let (e1, l1) := if holds r k then plain (u || open_question r) e body else plain_tail (u || open_question r) e t in
              let (e2, l2) := plain u e1 b in (e2, l1 ++ l2)
          | _ => (e, [])
          end
      end
    with plain_tail (u : bool) (e : env) (t : tail) : env * list event :=
      match t with
      | LEnd => (e, [])
      | LElse body => plain u e body
      | LElif c body t =>
          match c (mkInfo true u) e with
          | CPOk r k => if holds r k then plain (u || open_question r) e body else plain_tail (u || open_question r) e t
          | _ => (e, [])
          end
      end.
  End Select.

  (** Every condition is read or gives a message. *)
  Definition spoken (c : condition) : Prop := forall i e, c i e <> CPNone.
  (** A statement that leaves the state alone, or is refused, in a block that is false or not known *)
  Definition traceless (f : effect) : Prop := forall i e e' o, in_true i = false \/ in_unknown i = true -> f i e = (e', o, true) -> e' = e.
  Fixpoint all (P : effect -> Prop) (Q : condition -> Prop) (b : block) : Prop :=
    match b with
    | BNil => True
    | BOther f b => P f /\ all P Q b
    | BOpen _ body b => all P Q body /\ all P Q b
    | BIf c body t b => Q c /\ all P Q body /\ all_tail P Q t /\ all P Q b
    end
  with all_tail (P : effect -> Prop) (Q : condition -> Prop) (t : tail) : Prop :=
    match t with
    | LEnd => True
    | LElse body => all P Q body
    | LElif c body t => Q c /\ all P Q body /\ all_tail P Q t
    end.
  Definition says (Q : condition -> Prop) (x : stmt env cmd cond) : Prop := match x with TIf c | TElseif c => Q c | _ => True end.
End Blocks.

Arguments BNil {env cmd cond}. Arguments BOther {env cmd cond}. Arguments BOpen {env cmd cond}. Arguments BIf {env cmd cond}.
Arguments LEnd {env cmd cond}. Arguments LElse {env cmd cond}. Arguments LElif {env cmd cond}.
Arguments text {env cmd cond}. Arguments text_tail {env cmd cond}. Arguments events {cmd cond}. Arguments ECmd {cmd}. Arguments EOpen {cmd}. Arguments EClose {cmd}.
Arguments pass {env cmd cond}. Arguments pass_tail {env cmd cond}. Arguments holds {cond}. Arguments given {cmd cond}.
Arguments select {env cmd cond}. Arguments select_tail {env cmd cond}. Arguments plain {env cmd cond}. Arguments plain_tail {env cmd cond}.
Arguments spoken {env cond}. Arguments traceless {env cmd cond}. Arguments all {env cmd cond}. Arguments all_tail {env cmd cond}. Arguments says {env cmd cond}.
