(** Programs for the cases beside the theorems on loading and saving them. *)

Require Import ZArith Lia Bool List Permutation.
Require Import ZifyBool.
Require Import Verif.Ints Verif.Res Verif.BytesSpec Verif.ElfModel Verif.PsxModel Verif.ElfReadModel Verif.ElfReadSpec Verif.ElfReadProofs Verif.ElfReadCases.
Require Import Verif.ElfSaveModel Verif.ElfSaveSpec Verif.ElfSaveProofs Verif.ElfSaveEnd Verif.ElfSaveLoad Verif.ElfSaveWrite Verif.ElfSaveMain.
Import ListNotations.
Local Open Scope Z_scope.

(** ** Checking that bytes are a program *)

Fixpoint segmentsb (big : bool) (d : list Z) (pos step : Z) (gs : list (phdr * list Z)) : bool :=
  match gs with
  | [] => true
  | (g, x) :: gs => hasb d pos (phdr_bytes big g) && forallb wordb (phdr_fields g) && hasb d (p_offset g) x && (p_filesz g =? size x) && (p_offset g + size x <=? size d)
                    && segmentsb big d (pos + step) step gs
  end.
Fixpoint headersb (big : bool) (d : list Z) (pos step : Z) (ss : list shdr) : bool :=
  match ss with
  | [] => true
  | s :: ss => hasb d pos (shdr_bytes big s) && forallb wordb (shdr_fields s) && (sh_offset s + extent s <? 2147483648) && (negb (has_bits s) || (sh_offset s + sh_size s <=? size d))
               && headersb big d (pos + step) step ss
  end.
Definition programb (big : bool) (d : list Z) (h : ehdr) (gs : list (phdr * list Z)) (ss : list shdr) : bool :=
  (size d <? 2147483648) && hasb d 0 (ehdr_bytes big h) && headerb big h && (e_phnum h =? Z.of_nat (List.length gs)) && (e_shnum h =? Z.of_nat (List.length ss)) &&
  segmentsb big d (e_phoff h) (e_phentsize h) gs && headersb big d (e_shoff h) (e_shentsize h) ss.

Ltac parts_of H := match type of H with _ && _ = true => let H1 := fresh H in apply andb_prop in H; destruct H as (H & H1); parts_of H; parts_of H1 | _ => idtac end.
Lemma words_fine l : forallb wordb l = true -> Forall is_word l.
Proof. intros H. apply Forall_forall. intros x I. rewrite forallb_forall in H. specialize (H x I). unfold wordb in H. unfold is_word. lia. Qed.
Lemma halves_fine l : forallb halfb l = true -> Forall is_half l.
Proof. intros H. apply Forall_forall. intros x I. rewrite forallb_forall in H. specialize (H x I). unfold halfb in H. unfold is_half. lia. Qed.
Lemma hasb_true d p x : hasb d p x = true -> has d p x.
Proof. unfold hasb. intros H. apply andb_prop in H. destruct H as (A & B). split; [lia | apply same_eq; exact B]. Qed.
Lemma segmentsb_true big d step : forall gs pos, segmentsb big d pos step gs = true -> forall k g x, nth_error gs k = Some (g, x) ->
  has d (pos + Z.of_nat k * step) (phdr_bytes big g) /\ fine_phdr g /\ has d (p_offset g) x /\ p_filesz g = size x /\ p_offset g + size x <= size d.
Proof.
  induction gs as [| [g0 x0] gs IH]; intros pos H k g x E; [destruct k; discriminate E |]. cbn [segmentsb] in H. repeat match goal with X : _ && _ = true |- _ => apply andb_prop in X; destruct X end.
  destruct k as [| k]; [injection E as <- <-; rewrite Z.mul_0_l, Z.add_0_r | replace (pos + Z.of_nat (S k) * step) with (pos + step + Z.of_nat k * step) by lia; eapply IH; eassumption].
  split; [apply hasb_true; assumption |]. split; [apply words_fine; assumption |]. split; [apply hasb_true; assumption |]. lia.
Qed.
Lemma headersb_true big d step : forall ss pos, headersb big d pos step ss = true -> forall i s, nth_error ss i = Some s ->
  has d (pos + Z.of_nat i * step) (shdr_bytes big s) /\ fine_shdr s /\ sh_offset s + extent s < 2147483648 /\ (has_bits s = true -> sh_offset s + sh_size s <= size d).
Proof.
  induction ss as [| s0 ss IH]; intros pos H k s E; [destruct k; discriminate E |]. cbn [headersb] in H. repeat match goal with X : _ && _ = true |- _ => apply andb_prop in X; destruct X end.
  destruct k as [| k]; [injection E as <-; rewrite Z.mul_0_l, Z.add_0_r | replace (pos + Z.of_nat (S k) * step) with (pos + step + Z.of_nat k * step) by lia; eapply IH; eassumption].
  split; [apply hasb_true; assumption |]. split; [apply words_fine; assumption |]. split; [lia |]. intros Hb. rewrite Hb in *. cbn [negb orb] in *. lia.
Qed.
Lemma programb_true big d h gs ss : programb big d h gs ss = true -> program big d h gs ss.
Proof.
  unfold programb, headerb. intros H. repeat match goal with X : _ && _ = true |- _ => apply andb_prop in X; destruct X end. constructor.
  - lia.
  - apply hasb_true. assumption.
  - split; [apply Nat.eqb_eq; assumption |]. split; [apply Bool.eqb_prop; assumption |]. split; [apply halves_fine; assumption | apply words_fine; assumption].
  - lia.
  - lia.
  - eapply segmentsb_true. eassumption.
  - eapply headersb_true. eassumption.
Qed.

(** ** A program with two segments next to each other, and a section outside of them *)

Definition ident (big : bool) : list Z := [127; 69; 76; 70; 1; if big then 2 else 1; 1; 0; 0; 0; 0; 0; 0; 0; 0; 0].
Definition null_section : shdr := mkShdr 0 0 0 0 0 0 0 0 0 0.
Definition two_h : ehdr := mkEhdr (ident false) 2 8 1 0x1000 52 284 0 52 32 2 40 4 0.
Definition two_g0 : phdr := mkPhdr 1 0x100 0x1100 0x100 16 16 7 0x1000.
Definition two_g1 : phdr := mkPhdr 1 0x110 0x1110 0 8 8 7 0x1000.
Definition two_x0 : list Z := [1; 2; 3; 4; 5; 6; 7; 8; 9; 10; 11; 12; 13; 14; 15; 16].
Definition two_x1 : list Z := [17; 18; 19; 20; 21; 22; 23; 24].
Definition two_gs : list (phdr * list Z) := [(two_g0, two_x0); (two_g1, two_x1)].
Definition two_s0 : shdr := mkShdr 0 1 6 0x1100 0x100 16 0 0 4 0.
Definition two_s1 : shdr := mkShdr 0 1 6 0x1110 0x110 8 0 0 4 0.
Definition two_s2 : shdr := mkShdr 0 1 0 0 0x118 4 0 0 1 0.
Definition two_ss : list shdr := [null_section; two_s0; two_s1; two_s2].
Definition two_d : list Z :=
  ehdr_bytes false two_h ++ phdr_bytes false two_g0 ++ phdr_bytes false two_g1 ++ repeat 0 140 ++ two_x0 ++ two_x1 ++ [90; 91; 92; 93] ++ flat_map (shdr_bytes false) two_ss.
Lemma two_program : program false two_d two_h two_gs two_ss.
Proof. apply programb_true. vm_compute. reflexivity. Qed.
Lemma two_populated : populated (map fst two_gs) two_ss.
Proof.
  intros k K. destruct k as [| [| k]].
  - exists two_s0. split; [right; left; reflexivity | vm_compute; reflexivity].
  - exists two_s1. split; [right; right; left; reflexivity | vm_compute; reflexivity].
  - cbn in K. lia.
Qed.
Lemma two_roomy : roomy two_h.
Proof. split; vm_compute; discriminate. Qed.
Lemma two_separate : separate two_gs.
Proof.
  intros j k g x g' x' a G G' I I'. unfold in_segment in *. destruct j as [| [| j]]; [injection G as <- <- | injection G as <- <- | destruct j; discriminate G];
  destruct k as [| [| k]]; try (injection G' as <- <-); try (destruct k; discriminate G'); try reflexivity; cbn [two_g0 two_g1 p_vaddr p_filesz] in *; lia.
Qed.
Lemma reordered_refl f : reordered f f.
Proof.
  split; [reflexivity |]. split; [reflexivity |]. split; [apply Permutation_refl |]. induction (f_segments f); constructor; [| assumption]. split; [reflexivity |]. split; [reflexivity |]. split; [reflexivity | apply Permutation_refl].
Qed.
(** The order of its parts. *)
Definition two_order : list part := [SegmentTable; Segments; LooseSections; SectionTable].
Lemma two_all : Permutation two_order all_four.
Proof.
  unfold two_order, all_four. apply perm_skip. eapply perm_trans; [apply perm_skip, perm_swap |]. eapply perm_trans; [apply perm_swap |]. apply Permutation_refl.
Qed.

(** It as it is loaded, with the position at its start. *)
Definition two_f : elf := match load_elf two_d with ROk f => f | _ => mkElf two_h [] [] [] None None true end.
Lemma two_loads : load_elf two_d = ROk two_f.
Proof. unfold two_f. destruct (load_elf two_d) as [f | |] eqn:E; [reflexivity | vm_compute in E; discriminate E | vm_compute in E; discriminate E]. Qed.
Definition two_m : program_file := mkProgram two_f (Some O) (Some O) 0.
Lemma two_opens : load_program two_f = Some two_m.
Proof. vm_compute. reflexivity. Qed.
Lemma two_rep : rep two_d two_h two_gs two_ss two_f.
Proof. exact (loaded_program false two_d two_h two_gs two_ss two_f two_f two_program two_loads (reordered_refl two_f)). Qed.

(** Two patches, the second over a part of the first. *)
Definition two_patches : list (Z * list Z) := [(0x1102, [50; 51; 52; 53]); (0x1110, [60; 61]); (0x1104, [70])].
Definition two_patched : program_file := match patches two_m two_patches with ROk (Some m) => m | _ => two_m end.
Lemma two_patches_done : patches two_m two_patches = ROk (Some two_patched).
Proof. vm_compute. reflexivity. Qed.
Lemma two_patched_small : size (save two_order (pf_elf two_patched)) < 2147483648.
Proof. vm_compute. reflexivity. Qed.
Lemma two_saved_small : size (save two_order two_f) < 2147483648.
Proof. vm_compute. reflexivity. Qed.

(** ** A program without sections *)

Definition bare_h : ehdr := mkEhdr (ident true) 2 8 1 0x1000 52 0 0 52 32 1 40 0 0.
Definition bare_g : phdr := mkPhdr 1 96 0x1000 0 4 4 7 16.
Definition bare_gs : list (phdr * list Z) := [(bare_g, [1; 2; 3; 4])].
Definition bare_d : list Z := ehdr_bytes true bare_h ++ phdr_bytes true bare_g ++ repeat 0 12 ++ [1; 2; 3; 4].
Definition bare_order : list part := [SectionTable; SegmentTable; Segments; LooseSections].
Lemma bare_program : program true bare_d bare_h bare_gs [].
Proof. apply programb_true. vm_compute. reflexivity. Qed.
Definition bare_f : elf := match load_elf bare_d with ROk f => f | _ => mkElf bare_h [] [] [] None None true end.
Lemma bare_loads : load_elf bare_d = ROk bare_f.
Proof. unfold bare_f. destruct (load_elf bare_d) as [f | |] eqn:E; [reflexivity | vm_compute in E; discriminate E | vm_compute in E; discriminate E]. Qed.
Lemma bare_lost : ~ exists h' gs' ss', program true (save bare_order bare_f) h' gs' ss' /\ kept bare_d bare_h bare_gs [] (save bare_order bare_f) h' gs' ss'.
Proof.
  intros (h' & gs' & ss' & P & K). assert (Hh := ehdr_read true _ h' (pg_header _ _ _ _ _ P) (pg_fine _ _ _ _ _ P)).
  assert (Ph : e_phoff h' = 52). { assert (X : match loadElfHeader (save bare_order bare_f) with ROk h => e_phoff h | _ => 0 end = 52) by (vm_compute; reflexivity). rewrite Hh in X. exact X. }
  assert (F := kp_segments _ _ _ _ _ _ _ _ K). inversion F as [| ? [g' x'] ? r (_ & X) F']; subst. cbn [snd] in X. subst x'. clear F F' K.
  destruct (pg_segments _ _ _ _ _ P O g' [1; 2; 3; 4] eq_refl) as (Hg & Fg & _ & _ & Lim). assert (G := phdr_read true _ _ g' Hg Fg). rewrite Ph in G.
  assert (O : p_offset g' = 96) by (rewrite <- G; vm_compute; reflexivity). assert (S : size (save bare_order bare_f) = 96) by (vm_compute; reflexivity). rewrite O, S in Lim. vm_compute in Lim. apply Lim. reflexivity.
Qed.
(** The place of the first segment of the other program is not kept modulo its alignment. *)
Lemma two_moved h' gs' ss' g' x' : program false (save two_order two_f) h' gs' ss' -> nth_error gs' 0 = Some (g', x') -> p_offset g' = 128.
Proof.
  intros P G. assert (Hh := ehdr_read false _ h' (pg_header _ _ _ _ _ P) (pg_fine _ _ _ _ _ P)).
  assert (Ph : e_phoff h' = 52). { assert (X : match loadElfHeader (save two_order two_f) with ROk h => e_phoff h | _ => 0 end = 52) by (vm_compute; reflexivity). rewrite Hh in X. exact X. }
  destruct (pg_segments _ _ _ _ _ P O g' x' G) as (Hg & Fg & _). assert (X := phdr_read false _ _ g' Hg Fg). rewrite Ph in X. rewrite <- X. vm_compute. reflexivity.
Qed.
