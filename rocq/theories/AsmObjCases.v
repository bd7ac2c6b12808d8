(** A program that imports an object file, for the cases beside the theorems of [AsmObjProps]. *)

Require Import ZArith List Bool String Lia.
From Verif Require Import Ints Res FileModel FileSpec AllocModel AsmModel AsmSpec AsmCases AsmObjModel AsmObjProofs.
Require Verif.ElfModel Verif.ElfSpec Verif.ElfCases.
Import ListNotations.
Local Open Scope Z_scope.

(** Label 10: "table", label 11: "buf", label 12: "abs", label 13: "puts" *)
Definition numbers (name : string) : option nat :=
  if String.eqb name "table" then Some 10%nat else if String.eqb name "buf" then Some 11%nat
  else if String.eqb name "abs" then Some 12%nat else if String.eqb name "puts" then Some 13%nat else None.
Definition no_kinds (k : nat) : bool * Z := (false, 0).
(** The second section is one with constructors, label 20; the table with its start and end has label 21. *)
Definition the_ctors (i : nat) (s : Z) : option nat := if Nat.eqb i 0 && (s =? 2) then Some 20%nat else None.
Definition the_object : object := elf_object ElfModel.Mips [ElfCases.m_obj] numbers no_kinds the_ctors.
(** References before the import, to its symbols and to labels behind it, and a label the import refers to *)
Definition before_import : src := block
  [ CArch AMips false; COpen 0; CData 4 (values [lbl 10; lbl 11; lbl 12; lbl 1]); COrg false (lbl 2) ].
Definition after_import : src := block
  [ CLabel 1 None; CData 4 (values [lbl 10]); CLabel 13 None; CLabel 2 (Some (num 0x8000021)); CClose ].
Definition the_ctor : src := ctor_stub 3 (CData 4 (values [lbl 3])) 21 [(20%nat, 5)].
Definition importing : src := CSeq before_import (CSeq (CObj the_ctor the_object) after_import).
(** The symbols of the object are defined when the program has been read. *)
Definition exporting (files : list gfile) : world :=
  mkWorld (new_manager files nothing) (fun l => mkLab (existsb (Nat.eqb l) [10; 11; 12; 20]%nat) 0 None) alloc_initial [] (fun _ => 0) 0 AInvalid no_delay.
Definition import_out : list Z :=
  ElfCases.le [0x800004A; 0x8000060; 0x1234; 0x800006C] ++ repeat 0 17 ++ ElfCases.le [0x8000021; 0x8000048; 0x800004D] ++ [0; 0; 0] ++
  ElfCases.le [0x3C040801; 0x2484804E; 0x0E00001E; 0; 0x800005A] ++ [0; 0; 0; 0] ++ [1; 2; 3; 4; 5] ++ repeat 0 31 ++ ElfCases.le [0x800004A].
Lemma importing_runs : outcome_at (exporting one_file) importing [5%nat] = ROk (true, [Some import_out]).
Proof. vm_compute. reflexivity. Qed.
Lemma the_own : own_labels the_ctors.
Proof.
  assert (A : forall i s k, the_ctors i s = Some k -> i = 0%nat /\ s = 2).
  { intros i s k. unfold the_ctors. destruct (Nat.eqb_spec i 0); [|discriminate]. destruct (Z.eqb_spec s 2); [auto|discriminate]. }
  intros i j s t k H H'. destruct (A _ _ _ H) as [-> ->]. destruct (A _ _ _ H') as [-> ->]. auto.
Qed.
Lemma given_key names : forall values k v, In (k, v) (given_to numbers names values) -> exists n, numbers n = Some k.
Proof.
  induction names as [|n names IH]; intros [|v0 values] k v H; try destruct H. cbn [given_to] in H. destruct (numbers n) as [k0|] eqn:E; [|exact (IH _ _ _ H)].
  destruct H as [H|H]; [|exact (IH _ _ _ H)]. injection H as -> _. exists n. exact E.
Qed.
Lemma some_is {A} (x y : A) : Some x = Some y -> x = y.
Proof. congruence. Qed.
Lemma the_gives k : gives the_object k -> In k [10; 11; 12; 13; 20]%nat.
Proof.
  intros (L & a & r & v & Er & H). unfold the_object, elf_object in Er. destruct (ElfModel.relocate _ _ _ _) as [[[[out size] ps] ok]| |]; [|discriminate|discriminate].
  apply some_is in Er. subst r. cbn [ob_symbols ob_sections] in H. apply in_app_iff in H. destruct H as [H|H].
  - destruct (given_key _ _ _ _ H) as (n & E). unfold numbers in E. repeat (destruct (String.eqb n _); [injection E as <-; cbn; tauto|]). discriminate.
  - destruct (labelled_in _ _ _ _ _ H) as (j & p & s & _ & _ & _ & E). unfold the_ctors in E. destruct (_ && _); [|discriminate]. injection E as <-. cbn. tauto.
Qed.
Lemma the_sections k : of_section the_object k -> k = 20%nat.
Proof.
  intros (L & a & r & v & Er & H). unfold the_object, elf_object in Er. destruct (ElfModel.relocate _ _ _ _) as [[[[out size] ps] ok]| |]; [|discriminate|discriminate].
  apply some_is in Er. subst r. cbn [ob_sections] in H. destruct (labelled_in _ _ _ _ _ H) as (j & p & s & _ & _ & _ & E). unfold the_ctors in E. destruct (_ && _); [|discriminate]. injection E as <-. reflexivity.
Qed.
Lemma importing_apart : apart importing.
Proof.
  assert (Ob : apart (CObj the_ctor the_object)).
  { cbn [apart]. split; [apply objectless_apart; reflexivity|]. intros k [H|[_ H]] G; apply the_gives in G; cbn in H; [tauto|]. subst k. cbn in G. intuition discriminate. }
  assert (Ow : forall k, owns (CObj the_ctor the_object) k -> k = 20%nat \/ k = 21%nat).
  { intros k H. cbn [owns] in H. destruct H as [H|[[_ H]|H]]; [cbn in H; tauto|right; exact H|left; exact (the_sections _ H)]. }
  assert (B1 : forall k, ~ owns before_import k) by (intros k; apply objectless_owns; reflexivity).
  assert (B2 : forall k, ~ owns after_import k) by (intros k; apply objectless_owns; reflexivity).
  unfold importing. cbn [apart]. split; [split; [apply objectless_apart; reflexivity|]|].
  - split; [split; [exact Ob|apply objectless_apart; reflexivity]|]. split; intros k H S; [|exact (B2 k H)].
    destruct (Ow k H); subst k; cbn in S; intuition discriminate.
  - split; intros k H S; [exact (B1 k H)|]. cbn [owns] in H. destruct H as [H|H]; [|exact (B2 k H)]. destruct (Ow k H); subst k; cbn in S; intuition discriminate.
Qed.
Lemma importing_fresh : fresh one_file importing (exporting one_file).
Proof.
  constructor; [reflexivity|repeat constructor|reflexivity|exact one_header| | |exact importing_apart].
  - unfold importing, before_import, after_import, one_file. cbn [well_formed block List.length]. unfold valid_unit.
    assert (Wl : Forall ElfSpec.well_formed [ElfCases.m_obj]) by (constructor; [exact ElfCases.m_well|constructor]).
    assert (S : solid the_object) by (apply elf_solid; exact Wl). assert (Q : sectioned the_object) by (apply elf_sectioned; [exact Wl|exact the_own]).
    assert (T : tabled the_ctor) by apply stub_tabled. assert (Wc : well_formed [new_file 5 0 MCreate 0x8000000] the_ctor) by (cbn; unfold valid_unit; intuition lia).
    intuition lia.
  - cbn. constructor.
Qed.
