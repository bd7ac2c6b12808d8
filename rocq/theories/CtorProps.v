(** Property C89: the functions generated for the constructors of imported objects. *)

Require Import ZArith Bool List String Ascii Lia.
Require Import Verif.Ints Verif.Res Verif.MipsTable Verif.MipsModel Verif.MipsCpu Verif.MipsMacroModel.
Require Import Verif.CtorModel Verif.CtorSpec Verif.CtorProofs Verif.CtorRunProofs Verif.CtorShapeProofs Verif.CtorCallProofs Verif.CtorCases.
Require Import Verif.ParseModel.
Require Verif.LexModel.
Import ListNotations.
Local Open Scope string_scope.
Local Open Scope list_scope.
Local Open Scope Z_scope.

(** * C89: the function calls every constructor once, in order, and returns *)
(** MIPS, proved: the sections have a constructor each, and the constructors keep what the function saved, in the whole of its
    frame. *)
Theorem C89_mips_partial depth s ignore base tab outer inner l ws s' call c :
  mips_stub depth s ignore base tab outer inner (List.length l) = ROk (ws, [(OuterLoop, outer); (InnerLoop, inner); (CtorTable, tab)], s') ->
  0 <= base -> l <> [] -> Forall (fun x => snd x <> []) l -> sane c -> in_memory c tab l ->
  32 <= reg c 29 -> reg c 29 mod 4 = 0 ->
  (forall x, within (reg c 29 - 32) 32 x -> ~ data_of tab l x) ->
  (forall f, In f (all_of l) -> code_at 4 base ws f = None) ->
  keeps call (all_of l) (reg c 29 - 32) (fun x => data_of tab l x \/ within (reg c 29 - 32) 32 x) ->
  exists calls c', runs (code_at 4 base ws) call (at_pc base c) calls (at_pc (reg c 31) c') /\
    map fst calls = all_of l /\ Forall (fun e => reg (snd e) 29 = reg c 29 - 32) calls /\
    (forall r, saved r -> reg c' r = reg c r) /\
    memory_through (within (reg c 29 - 32) 32) call (ram c) calls (ram c').
Proof.
  intros ST B NE NS SA ME SP SA4 AP OUT KE. destruct l as [|x l]; [contradiction|]. cbn [List.length] in ST.
  pose proof (stub_shape _ _ _ _ _ _ _ _ _ _ ST) as SH.
  exact (shape_calls _ call base tab outer inner _ SH B (x :: l) eq_refl c SA ME SP SA4 AP OUT KE NE NS).
Qed.
Print Assumptions C89_mips_partial.
Example C89_mips_case : mips_stub 1 k_mips false 0x80001000 0x8000106C 0x80001028 0x80001034 (List.length k_l) = ROk (k_words 2, k_marks, k_mips) /\
  k_l <> [] /\ Forall (fun x => snd x <> []) k_l /\ sane k_cpu /\ in_memory k_cpu 0x8000106C k_l /\ 32 <= reg k_cpu 29 /\ reg k_cpu 29 mod 4 = 0 /\
  (forall x, within (reg k_cpu 29 - 32) 32 x -> ~ data_of 0x8000106C k_l x) /\
  (forall f, In f (all_of k_l) -> code_at 4 0x80001000 (k_words 2) f = None) /\
  keeps k_call (all_of k_l) (reg k_cpu 29 - 32) (fun x => data_of 0x8000106C k_l x \/ within (reg k_cpu 29 - 32) 32 x) /\
  (let r := simulate 45 (code_at 4 0x80001000 (k_words 2)) k_call (at_pc 0x80001000 k_cpu) in
   map fst (fst r) = [0x80003000; 0x80003010; 0x80003020] /\ m_pc (snd r) = 0x80000400).
Proof.
  split; [exact k_stub2|]. split; [discriminate|]. split; [repeat constructor; discriminate|]. split; [apply k_sane|]. split; [exact k_in_memory|].
  split; [vm_compute; discriminate|]. split; [reflexivity|].
  split; [intros x W D; apply k_data in D; unfold within in W; change (reg k_cpu 29) with 0x80100000 in W; lia|].
  split; [intros f F; repeat (destruct F as [<-|F]; [vm_compute; reflexivity|]); destruct F|].
  split; [exact k_keeps|]. vm_compute. split; reflexivity.
Qed.
(** Without a section the function returns at once. *)
Theorem C89_none_partial depth s ignore base tab outer inner ws ms s' call c :
  mips_stub depth s ignore base tab outer inner 0 = ROk (ws, ms, s') -> 
  exists calls c', runs (code_at 4 base ws) call (at_pc base c) calls (at_pc (reg c 31) c') /\ calls = [] /\ c' = c.
Proof. exact (none_returns depth s ignore base tab outer inner ws ms s' call c). Qed.
Print Assumptions C89_none_partial.
Example C89_none_case : mips_stub 1 k_mips false 0x80001000 0 0 0 0 = ROk ([65011720; 0], [], k_mips).
Proof. vm_compute. reflexivity. Qed.

(** Refuted: for a section without a constructor the function calls what comes after it. *)
Theorem C89_empty_refuted : exists depth s base tab outer inner l ws s' call c calls m, 
  mips_stub depth s false base tab outer inner (List.length l) = ROk (ws, [(OuterLoop, outer); (InnerLoop, inner); (CtorTable, tab)], s') /\
  l <> [] /\ all_of l = [] /\ sane c /\ in_memory c tab l /\ runs (code_at 4 base ws) call (at_pc base c) calls m /\ calls <> [].
Proof.
  exists 1%nat, k_mips, 0x80001000, 0x8000106C, 0x80001028, 0x80001034, e_l, (k_words 1), k_mips, k_call, e_cpu.
  eexists _, _. split; [exact k_stub1|]. split; [discriminate|]. split; [reflexivity|]. split; [apply k_sane|].
  split; [split; [lia|]; split; [reflexivity|]; split; [reflexivity|]; split; [vm_compute; intuition reflexivity|];
          constructor; [cbn [fst]; split; [lia|]; split; [reflexivity|]; split; [reflexivity|exact I]|constructor]|].
  split; [apply (simulate_runs _ _ 20)|]. intros H. apply (f_equal (map fst)) in H. vm_compute in H. discriminate H.
Qed.
Print Assumptions C89_empty_refuted.
(** Refuted: a function may use the first sixteen bytes of the frame of its caller for its arguments.  With a constructor
    that does, the function does not return to where it was called from; here it returns to the constructor. *)
Theorem C89_arguments_refuted : exists depth s base tab outer inner l ws s' call c calls m,
  mips_stub depth s false base tab outer inner (List.length l) = ROk (ws, [(OuterLoop, outer); (InnerLoop, inner); (CtorTable, tab)], s') /\
  l <> [] /\ Forall (fun x => snd x <> []) l /\ sane c /\ in_memory c tab l /\
  keeps call (all_of l) (reg c 29 - 32) (fun x => data_of tab l x \/ within (reg c 29 - 16) 16 x) /\
  runs (code_at 4 base ws) call (at_pc base c) calls m /\ map fst calls = all_of l ++ all_of l.
Proof.
  exists 1%nat, k_mips, 0x80001000, 0x8000106C, 0x80001028, 0x80001034, o_l, (k_words 1), k_mips, o_call, o_cpu.
  eexists _, _. split; [exact k_stub1|]. split; [discriminate|]. split; [repeat constructor; discriminate|]. split; [apply k_sane|].
  split; [split; [lia|]; split; [reflexivity|]; split; [reflexivity|]; split; [vm_compute; intuition reflexivity|];
          constructor; [cbn [fst]; split; [lia|]; split; [reflexivity|]; split; [reflexivity|vm_compute; intuition reflexivity]|constructor]|].
  split.
  { change (reg o_cpu 29) with 0x80100000. intros f c _ SP. split; [reflexivity|]. intros x X. unfold o_call. rewrite SP. apply poke32_away; [lia|lia|].
    destruct X as [X|X]; [apply o_keeps in X; lia|unfold within in X; lia]. }
  split; [apply (simulate_runs _ _ 29)|]. vm_compute. reflexivity.
Qed.
Print Assumptions C89_arguments_refuted.
(** Refuted, SuperH: the end of a section is taken from after the table.  Here the function goes on after the second of two
    constructors. *)
Theorem C89_sh_refuted : exists base tab outer inner ws call c m f1 f2 f3,
  sh_stub base tab outer inner 1 = ROk (ws, [(OuterLoop, outer); (InnerLoop, inner); (CtorTable, tab)]) /\
  (exists start, s_peek c tab = start /\ s_peek c (tab + 4) = start + 8 /\ s_peek c start = f1 /\ s_peek c (start + 4) = f2) /\
  sh_runs (code_at 2 base ws) call (sh_at base c) [f1; f2; f3] m /\ ~ In f3 [f1; f2].
Proof.
  exists 0x1000, 0x1034, 0x1012, 0x1018, s_words, s_call, s_cpu.
  exists (snd (sh_simulate 28 (code_at 2 0x1000 s_words) s_call (sh_at 0x1000 s_cpu))), 0x3000, 0x3010, 0x4000.
  split; [exact s_stub|]. split; [exists 0x2000; vm_compute; intuition reflexivity|].
  split; [|intros [H|[H|[]]]; discriminate H].
  assert (E : fst (sh_simulate 28 (code_at 2 0x1000 s_words) s_call (sh_at 0x1000 s_cpu)) = [0x3000; 0x3010; 0x4000]) by (vm_compute; reflexivity).
  rewrite <- E. apply sh_simulate_runs.
Qed.
Print Assumptions C89_sh_refuted.
(** Refuted, ARM: whatever is filled in, the text branches to a name that is not filled in, and ends with a quote that is
    opened and not closed. *)
Theorem C89_arm_refuted : exists branch line, (forall a, In branch (arm_text a)) /\
  (forall a, In (line ++ a_content a ++ """")%string (arm_text a)) /\ branch = "blt %innerLooplabel%" /\
  (forall strtod, LexModel.tokenize strtod (line ++ "start,start+0x00000008" ++ """") = 
     ROk [TIdent ".word"; TIdent "start"; TComma; TIdent "start"; TPlus; TInt 8; TInvalid; TSeparator]).
Proof.
  exists "blt %innerLooplabel%", ".word ". split; [|split; [|split; [reflexivity|]]].
  - intros a. do 16 right. left. vm_compute. reflexivity.
  - intros a. do 29 right. left. vm_compute. reflexivity.
  - intros strtod. vm_compute. reflexivity.
Qed.
Print Assumptions C89_arm_refuted.
