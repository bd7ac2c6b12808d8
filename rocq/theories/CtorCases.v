(** Concrete cases for the functions for the constructors: machines that can be run by computation. *)

Require Import ZArith Bool List String Ascii Lia ZifyBool.
Require Import Verif.Ints Verif.Res Verif.MipsTable Verif.MipsModel Verif.MipsCpu Verif.MipsMacroModel Verif.MipsExecProofs.
Require Import Verif.CtorModel Verif.CtorSpec Verif.CtorProofs.
Import ListNotations.
Local Open Scope string_scope.
Local Open Scope list_scope.
Local Open Scope Z_scope.

(** [n] steps or calls. *)
Fixpoint simulate (n : nat) (code : Z -> option Z) (call : Z -> cpu -> cpu) (m : machine) : list (Z * cpu) * machine :=
  match n with
  | O => ([], m)
  | S n =>
    match step code m with
    | Some m => simulate n code call m
    | None =>
      match code (m_pc m) with
      | None => if m_next m =? m_pc m + 4
                then let (l, e) := simulate n code call (at_pc (reg (m_cpu m) 31) (call (m_pc m) (m_cpu m))) in ((m_pc m, m_cpu m) :: l, e)
                else ([], m)
      | Some _ => ([], m)
      end
    end
  end.
Lemma simulate_runs code call : forall n m, runs code call m (fst (simulate n code call m)) (snd (simulate n code call m)).
Proof.
  induction n as [|n IH]; intros m; cbn [simulate]; [apply runs_stop|].
  destruct (step code m) as [m'|] eqn:E; [eapply runs_step; [exact E|apply IH]|].
  destruct (code (m_pc m)) as [w|] eqn:C; [apply runs_stop|].
  destruct (Z.eqb_spec (m_next m) (m_pc m + 4)) as [N|N]; [|apply runs_stop].
  pose proof (IH (at_pc (reg (m_cpu m) 31) (call (m_pc m) (m_cpu m)))) as H.
  destruct (simulate n code call _) as [l e]. cbn [fst snd] in *.
  assert (M : m = at_pc (m_pc m) (m_cpu m)) by (destruct m as [a b c]; cbn [m_next m_pc m_cpu] in *; subst b; reflexivity).
  rewrite M at 1. apply runs_call; assumption.
Qed.
Fixpoint sh_simulate (n : nat) (code : Z -> option Z) (call : Z -> shcpu -> shcpu) (m : shmachine) : list Z * shmachine :=
  match n with
  | O => ([], m)
  | S n =>
    match sh_step code m with
    | Some m => sh_simulate n code call m
    | None =>
      match code (h_pc m) with
      | None => if h_next m =? h_pc m + 2
                then let (l, e) := sh_simulate n code call (sh_at (s_pr (h_cpu m)) (call (h_pc m) (h_cpu m))) in (h_pc m :: l, e)
                else ([], m)
      | Some _ => ([], m)
      end
    end
  end.
Lemma sh_simulate_runs code call : forall n m, sh_runs code call m (fst (sh_simulate n code call m)) (snd (sh_simulate n code call m)).
Proof.
  induction n as [|n IH]; intros m; cbn [sh_simulate]; [apply shr_stop|].
  destruct (sh_step code m) as [m'|] eqn:E; [eapply shr_step; [exact E|apply IH]|].
  destruct (code (h_pc m)) as [w|] eqn:C; [apply shr_stop|].
  destruct (Z.eqb_spec (h_next m) (h_pc m + 2)) as [N|N]; [|apply shr_stop].
  pose proof (IH (sh_at (s_pr (h_cpu m)) (call (h_pc m) (h_cpu m)))) as H.
  destruct (sh_simulate n code call _) as [l e]. cbn [fst snd] in *.
  assert (M : m = sh_at (h_pc m) (h_cpu m)) by (destruct m as [a b c]; cbn [h_next h_pc h_cpu] in *; subst b; reflexivity).
  rewrite M at 1. apply shr_call; assumption.
Qed.

(** Words at addresses, the first byte with weight 1 or, for SuperH, with weight 2^24. *)
Fixpoint words_at (l : list (Z * Z)) (x : Z) : Z :=
  match l with [] => 0 | (a, w) :: l => if (a <=? x) && (x <? a + 4) then w / 2 ^ (8 * (x - a)) mod 256 else words_at l x end.
Fixpoint big_words_at (l : list (Z * Z)) (x : Z) : Z :=
  match l with [] => 0 | (a, w) :: l => if (a <=? x) && (x <? a + 4) then w / 2 ^ (8 * (3 - (x - a))) mod 256 else big_words_at l x end.
Lemma words_at_range l x : 0 <= words_at l x < 256.
Proof.
  induction l as [|[a w] l IH]; cbn [words_at]; [lia|]. destruct ((a <=? x) && (x <? a + 4)); [apply Z.mod_pos_bound; lia|exact IH].
Qed.

Definition k_mips : mips_state := mkMips N64 false false 0 false.
Definition k_regs (r : Z) : Z := if r =? 29 then 0x80100000 else if r =? 31 then 0x80000400 else if (16 <=? r) && (r <=? 30) then 1000 * r else 0.
Definition k_l : list (Z * list Z) := [(0x80002000, [0x80003000; 0x80003010]); (0x80002100, [0x80003020])].
Definition k_cpu : cpu := mkCpu k_regs (words_at
  [(0x8000106C, 0x80002000); (0x80001070, 0x80002008); (0x80001074, 0x80002100); (0x80001078, 0x80002104);
   (0x80002000, 0x80003000); (0x80002004, 0x80003010); (0x80002100, 0x80003020)]).
Lemma k_sane l : sane (mkCpu k_regs (words_at l)).
Proof.
  split; [reflexivity|]. split; [|intros a; apply words_at_range]. intros r. cbn [reg]. unfold k_regs.
  repeat match goal with |- context [if ?b then _ else _] => destruct b eqn:?H end; lia.
Qed.
Definition k_words (n : nat) : list Z := match mips_stub 1 k_mips false 0x80001000 0x8000106C 0x80001028 0x80001034 n with ROk (ws, _, _) => ws | _ => [] end.
Definition k_marks : list (ctor_label * Z) := [(OuterLoop, 0x80001028); (InnerLoop, 0x80001034); (CtorTable, 0x8000106C)].
Lemma k_stub2 : mips_stub 1 k_mips false 0x80001000 0x8000106C 0x80001028 0x80001034 2 = ROk (k_words 2, k_marks, k_mips).
Proof. vm_compute. reflexivity. Qed.
Lemma k_stub1 : mips_stub 1 k_mips false 0x80001000 0x8000106C 0x80001028 0x80001034 1 = ROk (k_words 1, k_marks, k_mips).
Proof. vm_compute. reflexivity. Qed.
Lemma k_in_memory : in_memory k_cpu 0x8000106C k_l.
Proof.
  split; [lia|]. split; [reflexivity|]. split; [reflexivity|]. split.
  - vm_compute. intuition reflexivity.
  - constructor; [|constructor; [|constructor]]; (split; [cbn [fst]; lia|split; [reflexivity|split; [reflexivity|vm_compute; intuition reflexivity]]]).
Qed.
Lemma k_data x : data_of 0x8000106C k_l x -> 0x8000106C <= x < 0x80002104.
Proof.
  intros [H|H]; [unfold within, k_l in H; cbn [List.length] in H; lia|].
  apply Exists_exists in H. destruct H as (s & [<-|[<-|[]]] & W); unfold within in W; cbn [fst snd List.length] in W; lia.
Qed.
(** A function that leaves its address behind. *)
Definition k_call (f : Z) (c : cpu) : cpu := set (poke32 c 0x80200000 f) 2 f.
Lemma k_keeps : keeps k_call (all_of k_l) (0x80100000 - 32) (fun x => data_of 0x8000106C k_l x \/ within (0x80100000 - 32) 32 x).
Proof.
  intros f c _ _. split.
  - intros r S. unfold k_call. rewrite set_other by (unfold saved in S; lia). reflexivity.
  - intros x X. unfold k_call. rewrite set_ram. apply poke32_away; [lia|lia|]. left. destruct X as [X|X]; [apply k_data in X; lia|unfold within in X; lia].
Qed.

(** A section without a constructor. *)
Definition e_l : list (Z * list Z) := [(0x80002000, [])].
Definition e_cpu : cpu := mkCpu k_regs (words_at [(0x8000106C, 0x80002000); (0x80001070, 0x80002000); (0x80002000, 0x80003000)]).
(** One constructor, which uses the sixteen bytes that the caller of a function provides for its arguments. *)
Definition o_l : list (Z * list Z) := [(0x80002000, [0x80003000])].
Definition o_cpu : cpu := mkCpu k_regs (words_at [(0x8000106C, 0x80002000); (0x80001070, 0x80002004); (0x80002000, 0x80003000)]).
Definition o_call (f : Z) (c : cpu) : cpu := poke32 c (reg c 29) (reg c 4).
Lemma o_keeps x : data_of 0x8000106C o_l x -> 0x8000106C <= x < 0x80002004.
Proof.
  intros [H|H]; [unfold within, o_l in H; cbn [List.length] in H; lia|].
  apply Exists_exists in H. destruct H as (s & [<-|[]] & W); unfold within in W; cbn [fst snd List.length] in W; lia.
Qed.

(** SuperH: one section with two constructors. *)
Definition s_words : list Z := match sh_stub 0x1000 0x1034 0x1012 0x1018 1 with ROk (ws, _) => ws | _ => [] end.
Lemma s_stub : sh_stub 0x1000 0x1034 0x1012 0x1018 1 = ROk (s_words, [(OuterLoop, 0x1012); (InnerLoop, 0x1018); (CtorTable, 0x1034)]).
Proof. vm_compute. reflexivity. Qed.
Definition s_cpu : shcpu := mkShcpu (fun r => if r =? 15 then 0x8000 else 0) 0x400 false
  (big_words_at [(0x1034, 0x2000); (0x1038, 0x2008); (0x2000, 0x3000); (0x2004, 0x3010); (0x2008, 0x4000)]).
Definition s_call (f : Z) (c : shcpu) : shcpu := c.
