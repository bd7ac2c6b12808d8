(** Properties of the command line: C90, C91. *)

Require Import ZArith List String Ascii Bool Lia.
From Coq Require Import Floats.SpecFloat.
From Verif Require Import Ints Res ParseModel LexModel LexSpec SymModel SymSpec SymIface SymProofs ExpandModel TextSpec CliModel CliSpec CliProofs CliStartProofs.
Import ListNotations.
Local Open Scope string_scope.
Local Open Scope list_scope.

(** ** C90: what a command line means *)

(** A command line is accepted exactly if it is options and one file (words that are empty are no file) in any order, the names
    of equs and labels are symbol names and different among themselves, the values of labels can be read, every directory
    exists, and so does the file; the settings are then the ones written, the last one where only one is used. *)
Theorem C90_command_line chdir file_exists dir args s : (forall a, In a args -> no_nul a) ->
  parse_arguments chdir file_exists dir args = ROk s <->
  exists l, written true l args /\
    s_temp s = final temp_of "" l /\ (s_sym s, s_version s) = final sym_of ("", 0%Z) l /\
    s_strict s = final strict_of false l /\ s_stat s = final stat_of false l /\
    s_equs s = pick equ_of l /\ NoDup (map fst (s_equs s)) /\ Forall symbol_name (map fst (s_equs s)) /\
    Forall2 (fun w x => fst w = fst x /\ label_value (snd w) = ROk (Some (snd x))) (pick label_of l) (s_labels s) /\
    NoDup (map fst (s_labels s)) /\ Forall symbol_name (map fst (s_labels s)) /\
    (s_input s <> "" /\ exists k, pick input_of l = repeat "" k ++ [s_input s]) /\
    directory chdir dir (pick root_of l) (s_dir s) /\ file_exists (s_dir s) (s_input s) = true.
Proof. exact (command_line_names chdir file_exists dir args s). Qed.
Print Assumptions C90_command_line.

(** A command line can be read in one way only. *)
Theorem C90_unambiguous l1 l2 args : written true l1 args -> written true l2 args -> l1 = l2.
Proof. intros A B. exact (written_unique true l1 args A l2 B). Qed.
Print Assumptions C90_unambiguous.

(** The exit code is 0 exactly if the command line is accepted and the assembly succeeds; nothing is assembled for a command
    line that is not accepted. *)
Theorem C90_exit_code chdir file_exists run dir args :
  (exit_code chdir file_exists run dir args = ROk 0%Z <-> exists s, parse_arguments chdir file_exists dir args = ROk s /\ run s = ROk true) /\
  (parse_arguments chdir file_exists dir args = RErr -> forall run', exit_code chdir file_exists run' dir args = ROk 1%Z).
Proof. exact (exit_code_zero chdir file_exists run dir args). Qed.
Print Assumptions C90_exit_code.

Definition sub (d n : string) : option string := if String.eqb n "missing" then None else Some (d ++ "/" ++ n)%string.
Example C90_case :
  let args := ["-equ"; "Speed"; "10"; "-root"; "src"; "-sym2"; "a.sym"; "-definelabel"; "main"; "0x100"; "-strequ"; "who"; "me"; "-sym"; "b.sym"; "-erroronwarning"; "--"; "-x.asm"] in
  (forall a, In a args -> no_nul a) /\
  parse_arguments sub (fun d n => String.eqb d "home/src" && String.eqb n "-x.asm") "home" args
  = ROk (mkSettings "" "b.sym" 1 true false [("Speed", "10"); ("who", String "034" (String "m" (String "e" (String "034" "")))) ] [("main", 256%Z)] "-x.asm" "home/src") /\
  parse_arguments sub (fun d n => true) "home" ["a.asm"; "b.asm"] = RErr /\
  parse_arguments sub (fun d n => true) "home" ["a.asm"; "-sym"] = RErr /\
  parse_arguments sub (fun d n => true) "home" ["a.asm"; "-equ"; "1x"; "2"] = RErr /\
  exit_code sub (fun d n => true) (fun s => ROk true) "home" ["a.asm"; "-root"; "missing"] = ROk 1%Z /\
  exit_code sub (fun d n => true) (fun s => ROk true) "home" ["a.asm"; "-root"; "x"] = ROk 0%Z.
Proof.
  split; [|vm_compute; auto 10]. intros a H. cbn in H. repeat (destruct H as [<-|H]; [cbn; repeat split; discriminate|]). contradiction.
Qed.

(** ** C91: equs and labels of the command line are those of the source *)

(** A number is read as it is in the source. *)
Theorem C91_label_value_partial v base ds z : literal v base ds -> starts_with_digit v -> number_value base ds = Some z -> (z <= int64_max)%Z ->
  label_value v = ROk (Some z).
Proof. exact (label_literal v base ds z). Qed.
Print Assumptions C91_label_value_partial.
Example C91_label_value_case : literal "1fh" 16 "1f" /\ starts_with_digit "1fh" /\ number_value 16 "1f" = Some 31%Z /\ label_value "1fh" = ROk (Some 31%Z).
Proof. split; [apply (lit_h "h" "1f"); auto|]. split; [exists 1%Z; reflexivity|]. split; reflexivity. Qed.

(** A label whose name is no other label and no equ up to case is seen, with its value, wherever it is mentioned. *)
Theorem C91_labels_partial strtod fuel s q section n v : start strtod fuel s = ROk (q, section) ->
  In (n, v) (s_labels s) -> symbol_name n -> scope_of (mkRef n 0 0) = Global ->
  (forall m w, In (m, w) (s_labels s) -> same_spelling n m -> (m, w) = (n, v)) -> NoDup (map fst (s_labels s)) ->
  (forall m w, In (m, w) (s_equs s) -> ~ same_spelling n m) ->
  forall n' file k, same_spelling n' n -> read_label (q_table q) (mkRef n' file k) = Some (v, true).
Proof. exact (start_label_global strtod fuel s q section n v). Qed.
Print Assumptions C91_labels_partial.

(** -equ NAME VALUE is the line NAME equ VALUE: for names in lower case, different from each other, and values that are a whole. *)
Theorem C91_equs_partial strtod fuel l :
  (forall n v, In (n, v) l -> proper_name n /\ symbol_name n /\ equ_value v) -> NoDup (map fst l) ->
  start_equs strtod fuel no_equs l = source_equs strtod fuel no_equs (map (fun x => fst x ++ " equ " ++ snd x)%string l).
Proof. exact (equs_same_start strtod fuel l). Qed.
Print Assumptions C91_equs_partial.

Definition no_floats (s : string) : option spec_float := None.
Ltac symname := apply valid_name_iff; split; [reflexivity|cbn; repeat split; discriminate].
Example C91_case :
  let s := mkSettings "" "" 0 false false [("speed", "10"); ("fast", "speed+1")] [("main", 256%Z); ("Other", 7%Z)] "a.asm" "" in
  (forall n v, In (n, v) (s_equs s) -> proper_name n /\ symbol_name n /\ equ_value v) /\ NoDup (map fst (s_equs s)) /\
  source_equs no_floats 100 no_equs ["speed equ 10"; "fast equ speed+1"] = start_equs no_floats 100 no_equs (s_equs s) /\
  symbol_name "Other" /\
  exists q k, start no_floats 100 s = ROk (q, k) /\ q_values q = [[TInt 10]; [TInt 10; TPlus; TInt 1]] /\
    read_label (q_table q) (mkRef "oTHER" 3 4) = Some (7%Z, true) /\ read_label (q_table q) (mkRef "MAIN" 3 4) = Some (256%Z, true).
Proof.
  split; [|split; [|split; [vm_compute; reflexivity|split; [symname|]]]].
  - intros n v H. cbn in H.
    assert (L : forall i, (97 <= i < 123)%nat -> forall f, name_char f (ascii_of_nat i)) by (intros i Hi f; left; exists i; auto).
    destruct H as [H|[H|[]]]; injection H as <- <-.
    + split; [|split; [symname|repeat split; discriminate]]. split; [discriminate|]. split; [|split; discriminate].
      repeat split; [apply (L 115)|apply (L 112)|apply (L 101)|apply (L 101)|apply (L 100)]; lia.
    + split; [|split; [symname|repeat split; discriminate]]. split; [discriminate|]. split; [|split; discriminate].
      repeat split; [apply (L 102)|apply (L 97)|apply (L 115)|apply (L 116)]; lia.
  - cbn. repeat constructor; cbn; intuition discriminate.
  - eexists _, _. split; [vm_compute; reflexivity|]. repeat split; reflexivity.
Qed.

(** Anything but a number: a sign is a digit worth -3, + one worth -5, and of an empty value the character in front of it is read. *)
Theorem C91_value_refuted : label_value "-5" = ROk (Some (-25)%Z) /\ label_value "1+1" = ROk (Some 51%Z) /\ label_value "" = RUb /\
  forall chdir file_exists, parse_arguments chdir file_exists "" ["a.asm"; "-definelabel"; "a"; ""] = RUb.
Proof. repeat split; vm_compute; reflexivity. Qed.
Print Assumptions C91_value_refuted.

(** Names that differ by case only are accepted twice, but are one symbol: of labels the second is used, of equs the first, and
    the second equ is an error in the source. *)
Theorem C91_case_refuted strtod chdir :
  let fe := fun _ _ => true in
  (exists s q k, parse_arguments chdir fe "" ["a.asm"; "-definelabel"; "x"; "1"; "-definelabel"; "X"; "2"] = ROk s /\
    start strtod 10 s = ROk (q, k) /\ read_label (q_table q) (mkRef "x" 1 1) = Some (2%Z, true)) /\
  (exists s q, parse_arguments chdir fe "" ["a.asm"; "-equ"; "X"; "1"; "-equ"; "x"; "2"] = ROk s /\
    start strtod 10 s = ROk (q, 0%Z) /\ find_equation (q_table q) "x" 1 1 = Some 0%nat /\ nth_error (q_values q) 0 = Some [TInt 1]) /\
  source_equs strtod 10 no_equs ["X equ 1"; "x equ 2"] = RErr.
Proof.
  split; [|split].
  - eexists _, _, _. split; [vm_compute; reflexivity|]. split; [vm_compute; reflexivity|]. vm_compute; reflexivity.
  - eexists _, _. split; [vm_compute; reflexivity|]. split; [vm_compute; reflexivity|]. split; vm_compute; reflexivity.
  - vm_compute; reflexivity.
Qed.
Print Assumptions C91_case_refuted.

(** An equ with an upper case name may stand for itself, which is an error in the source. *)
Theorem C91_recursion_refuted strtod chdir :
  (exists s q, parse_arguments chdir (fun _ _ => true) "" ["a.asm"; "-equ"; "X"; "X"] = ROk s /\
    start strtod 10 s = ROk (q, 0%Z) /\ find_equation (q_table q) "x" 1 1 = Some 0%nat /\ nth_error (q_values q) 0 = Some [TIdent "x"]) /\
  source_equs strtod 10 no_equs ["X equ X"] = RErr.
Proof.
  split; [|vm_compute; reflexivity]. eexists _, _. split; [vm_compute; reflexivity|]. split; [vm_compute; reflexivity|]. split; vm_compute; reflexivity.
Qed.
Print Assumptions C91_recursion_refuted.

(** A label with the name of an equ is dropped without a message. *)
Theorem C91_dropped_refuted strtod chdir : exists s q,
  parse_arguments chdir (fun _ _ => true) "" ["a.asm"; "-definelabel"; "x"; "1"; "-equ"; "x"; "2"] = ROk s /\ s_labels s = [("x", 1%Z)] /\
  start strtod 10 s = ROk (q, 0%Z) /\ read_label (q_table q) (mkRef "x" 1 1) = None.
Proof. eexists _, _. split; [vm_compute; reflexivity|]. split; [reflexivity|]. split; vm_compute; reflexivity. Qed.
Print Assumptions C91_dropped_refuted.
