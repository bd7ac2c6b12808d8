(** Where output goes, computed from the history of file operations and their success. *)

Require Import ZArith List Bool.
From Verif Require Import Ints Res FileModel.
Import ListNotations.
Local Open Scope Z_scope.

(** The open file, the header size in force, the file address, and whether the file can be written
    (it is not when only the check of a validation pass was made). *)
Record cursor := mkCursor { cu_file : nat; cu_header : Z; cu_phys : Z; cu_real : bool }.

(** Histories are read from the latest event backwards; [header0 i]: the header size given for file [i]. *)
Fixpoint where_to (header0 : nat -> Z) (h : list (file_op * bool)) : option cursor :=
  match h with
  | [] => None
  | (FOpen i check, ok) :: _ => Some (mkCursor i (header0 i) 0 (negb check && ok))
  | (FClose, _) :: _ => None
  | (_, false) :: h => where_to header0 h
  | (o, true) :: h =>
      match where_to header0 h with
      | None => None
      | Some c =>
          let move p := Some (mkCursor (cu_file c) (cu_header c) p (cu_real c)) in
          match o with
          | FWrite l => move (cu_phys c + Z.of_nat (List.length l))
          | FWriteUnit n _ => move (cu_phys c + Z.of_nat n)
          | FSeek a => move (a - cu_header c)
          | FSeekPhysical p => move p
          | FAdvance n => move (s64 (cu_phys c + cu_header c + n) - cu_header c)
          | FHeader h => Some (mkCursor (cu_file c) h (cu_phys c) (cu_real c))
          | _ => Some c
          end
      end
  end.

Fixpoint big_endian (h : list (file_op * bool)) : bool :=
  match h with
  | [] => false
  | (FEndian b, _) :: _ => b
  | _ :: h => big_endian h
  end.

(** Units have 1, 2, 4 or 8 bytes; files that are opened exist. *)
Definition op_ok (files : list gfile) (o : file_op) : Prop :=
  match o with
  | FWriteUnit n _ => n = 1%nat \/ n = 2%nat \/ n = 4%nat \/ n = 8%nat
  | FOpen i _ => (i < List.length files)%nat
  | _ => True
  end.

(** A history of operations starting with fresh files. *)
Inductive file_history (writable : nat -> bool) (own_big : bool) (files : list gfile) (d : disk) :
  fmgr -> list (file_op * bool) -> Prop :=
| fh_nil : file_history writable own_big files d (new_manager files d) []
| fh_step : forall m h o m' ok,
    file_history writable own_big files d m h -> op_ok files o ->
    file_step writable own_big m o = ROk (m', ok) ->
    file_history writable own_big files d m' ((o, ok) :: h).

Definition fresh (g : gfile) : Prop :=
  exists name original mode header, g = new_file name original mode header.
Definition header_of (files : list gfile) (i : nat) : Z :=
  match nth_error files i with Some g => g_header0 g | None => 0 end.
Definition name_of (files : list gfile) (i : nat) : nat :=
  match nth_error files i with Some g => g_name g | None => 0%nat end.

(** A byte of a file; past the end zero. *)
Definition byte_at (c : list Z) (i : nat) : Z := nth i c 0.
