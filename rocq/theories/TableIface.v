(** Histories of tables, for stating properties of encoding. *)

Require Import ZArith List Bool.
From Verif Require Import Res TableModel TableSpec.
Import ListNotations.

(** Tables made by calls of addEntry and setTerminationEntry from a new one: the entries and the
    terminator they were given. *)
Inductive built : table -> entries -> list Z -> Prop :=
| b_new : built new_table [] []
| b_add t h term k b : built t h term -> built (add_entry t b k) (h ++ [(k, b)]) term
| b_term t h term b : built t h term -> built (set_termination t b) h b.

(** Directives .loadtable executed in order, each with the lines of its file. *)
Definition after_directives (files : list (list (list Z))) : table :=
  fold_left validate_table files new_table.
