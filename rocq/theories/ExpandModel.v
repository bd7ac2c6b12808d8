(** Model of the token replacement layer: Tokenizer in Parser/Tokenizer.cpp 42-275 (processElement,
    nextToken, peekToken, registerReplacement) and Parser::addEquation, Parser.cpp 306-342.

    The token list is represented from the current position on; every token carries its [checked]
    mark.  Line, column and original text are left out.  In processElement the name [identifier] is
    a reference into the token that is overwritten, so after a replacement it reads the name of the
    replacement token; the comparison of line 84 therefore never sees a difference, and a token
    replaced by an identifier is not replaced a second time by a macro argument. *)

Require Import ZArith List String Bool.
From Verif Require Import ParseModel SymModel.
Import ListNotations.

Definition ctoken : Type := token * bool.
Definition unchecked (l : list token) : list ctoken := List.map (fun t => (t, false)) l.

(** Outcome of processElement: the new list, an exception or undefined behaviour, or the recursion
    bound of the model. *)
Inductive pout : Type := PDone (l : list ctoken) | PBad | PMore.

(** replacements: vector of (identifier, tokens); the first match is taken (65-87). *)
Fixpoint find_replacement (x : string) (l : list (string * list token)) : option (list token) :=
  match l with
  | [] => None
  | (y, v) :: r => if String.eqb y x then Some v else find_replacement x r
  end.

(** What the tokenizer consults: the replacements of this tokenizer, and the equ values visible from
    the current file and section (findEquation and equValues, 93-94 and 103). *)
Record env := mkEnv {
  e_replacements : list (string * list token);
  e_equ : string -> option (list token) }.

Definition is_ident (t : token) : option string := match t with TIdent x => Some x | _ => None end.
Definition is_equ (l : list ctoken) : bool := match l with (TEqu, _) :: _ => true | _ => false end.

(** processElement, 51-125.  An empty replacement or equ value makes the code read value[0] of an
    empty vector (79) or insert 2^64-1 tokens (104). *)
Fixpoint process (fuel : nat) (e : env) (l : list ctoken) : pout :=
  match fuel with
  | O => PMore
  | S fuel =>
      match l with
      | [] => PDone []
      | (t, true) :: _ => PDone l
      | (t, false) :: r =>
          match is_ident t with
          | None => PDone ((t, true) :: r)
          | Some x =>
              (* 64-88 *)
              match find_replacement x (e_replacements e) with
              | Some [] => PBad
              | rep =>
                  let '(t1, r1) :=
                    match rep with
                    | Some (v0 :: vs) => (v0, unchecked vs ++ r)
                    | _ => (t, r)
                    end in
                  match is_ident t1 with
                  | None => process fuel e ((t1, false) :: r1)           (* 90-91 *)
                  | Some y =>
                      match e_equ e y with
                      | None => PDone ((t1, true) :: r1)                 (* 120-121 *)
                      | Some w =>
                          if is_equ r1 then PDone ((t1, false) :: r1)    (* 100-101 *)
                          else match w with
                               | [] => PBad
                               | _ => process fuel e (unchecked w ++ r1) (* 104-117 *)
                               end
                      end
                  end
              end
          end
      end
  end.

(** nextToken called until the end (or until a token satisfies [stop]), 127-133: the delivered
    tokens.  None: an exception, or the bound was hit. *)
Inductive dout : Type := DDone (l : list token) | DBad | DMore.
Fixpoint drain (fuel : nat) (e : env) (stop : token -> bool) (l : list ctoken) : dout :=
  match fuel with
  | O => DMore
  | S fuel' =>
      match process fuel e l with
      | PBad => DBad
      | PMore => DMore
      | PDone [] => DDone []
      | PDone ((t, _) :: r) =>
          if stop t then DDone []
          else match drain fuel' e stop r with
               | DDone out => DDone (t :: out)
               | x => x
               end
      end
  end.

(** peekToken(ahead), 135-151: all elements up to the peeked one are processed in place. *)
Fixpoint peek_process (ahead : nat) (fuel : nat) (e : env) (l : list ctoken) : pout :=
  match process fuel e l with
  | PDone (c :: r) =>
      match ahead with
      | O => PDone (c :: r)
      | S ahead =>
          match peek_process ahead fuel e r with
          | PDone r' => PDone (c :: r')
          | x => x
          end
      end
  | x => x
  end.

(** ** Declaring an equ: Parser::addEquation, Parser.cpp 306-342 *)

(** The symbol table and Tokenizer::equValues. *)
Record equs := mkEqus { q_table : table; q_values : list (list token) }.
Definition no_equs : equs := mkEqus empty_table [].

(** The replacements a plain file tokenizer sees from a place: no macro arguments, and the equs
    found by findEquation(identifier, FileNum, Section). *)
Definition equ_at (q : equs) (file section : Z) (x : string) : option (list token) :=
  match find_equation (q_table q) x file section with
  | Some i => nth_error (q_values q) i
  | None => None
  end.
Definition file_env (q : equs) (file section : Z) : env := mkEnv [] (equ_at q file section).

Definition is_separator (t : token) : bool := match t with TSeparator => true | _ => false end.
Definition is_equ_token (t : token) : bool := match t with TEqu => true | _ => false end.
Definition is_name (name : string) (t : token) : bool :=
  match t with TIdent x => String.eqb x name | _ => false end.

(** [value] are the tokens of the text after "equ"; they are read through a fresh tokenizer, so equs
    that are visible now are replaced.  None: an error was printed or reading did not finish. *)
Definition define_equ (fuel : nat) (q : equs) (name : string) (file section : Z) (value : list token)
  : option equs :=
  match drain fuel (file_env q file section) is_separator (unchecked value) with
  | DDone out =>
      if existsb (is_name name) out || existsb is_equ_token out then None
      else
        let '(t, _) := add_equation (q_table q) name file section (List.length (q_values q)) in
        Some (mkEqus t (q_values q ++ [out]))
  | _ => None
  end.
