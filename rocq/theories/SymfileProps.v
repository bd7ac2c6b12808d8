(** C54: the symbol file. *)

Require Import ZArith List Bool String Permutation Sorted.
From Verif Require Import Ints Res SymfileModel SymfileSpec SymfileProofs.
Import ListNotations.
Local Open Scope Z_scope.

(** After any sequence of notifications that runs through, each file has one module, and each
    module holds exactly the labels and data announced while it was open and output was enabled, no
    label and no data twice. *)
Theorem C54_modules :
  forall ops s, sym_run sym_new ops = ROk s ->
  NoDup (map m_file (s_modules s)) /\
  (forall m, In m (s_modules s) -> NoDup (m_symbols m) /\ NoDup (m_data m)) /\
  (forall f a n, label_of f a n (rev ops) <-> exists m, In m (s_modules s) /\ m_file m = f /\ In (a, n) (m_symbols m)) /\
  (forall f d, data_of f d (rev ops) <-> exists m, In m (s_modules s) /\ m_file m = f /\ In d (m_data m)).
Proof. exact modules_exact. Qed.
Print Assumptions C54_modules.

Example C54_modules_case :
  exists s, sym_run sym_new two_modules = ROk s /\ label_of (Some 1%nat) 0x100 "main" (rev two_modules) /\
            label_of None 0x100 "main" (rev two_modules) /\ map m_file (s_modules s) = [None; Some 1%nat].
Proof.
  eexists. split; [reflexivity|]. split; [|split; [|reflexivity]].
  - exists [SEndModule 1], [SStartModule 1; SLabel 0x100 "main"]. repeat split.
  - exists [SEndModule 1; SLabel 0x100 "main"; SStartModule 1], []. repeat split.
Qed.

(** The file: while no ELF module is involved every sequence of notifications runs through, and the
    lines are one per announced label (with the size of the function that starts there) and one per
    announced datum, in ascending order.  Partial: one function per start address, and no modules —
    see the three refutations. *)
Theorem C54_lines_partial :
  forall hex8 hex4 lower version ops, module_free ops -> NoDup (map fst (functions ops)) ->
  exists s labels data,
    sym_run sym_new ops = ROk s /\
    NoDup labels /\ (forall a n, In (a, n) labels <-> label_of None a n (rev ops)) /\
    NoDup data /\ (forall d, In d data <-> data_of None d (rev ops)) /\
    Permutation (written_entries hex8 hex4 lower version s)
      (map (label_line hex8 lower version (functions ops)) labels ++ map (data_line hex4) data).
Proof. exact written_all. Qed.
Print Assumptions C54_lines_partial.

Theorem C54_sorted :
  forall hex8 hex4 lower version s, StronglySorted entry_le (written_entries hex8 hex4 lower version s).
Proof. intros. apply sort_sorted. Qed.
Print Assumptions C54_sorted.

(** Functions never fail without modules, and have the distance to their end as size. *)
Theorem C54_functions_partial :
  forall ops, module_free ops ->
  exists s, sym_run sym_new ops = ROk s /\ exists m ms, s_modules s = m :: ms /\ m_functions m = functions ops.
Proof. exact functions_new. Qed.
Print Assumptions C54_functions_partial.

Example C54_lines_case :
  module_free one_module /\ functions one_module = [(0x100, 0x20); (0x120, 0x10)] /\ NoDup (map fst (functions one_module)) /\
  exists s, sym_run sym_new one_module = ROk s /\
    written_entries (fun _ => "hex8"%string) (fun _ => "hex4"%string) (fun x => x) 2 s =
    [(0x100, ".dbl:hex4"%string); (0x100, "alias,hex8"%string); (0x100, "main,hex8"%string); (0x120, "next,hex8"%string)].
Proof.
  split; [|split; [reflexivity|split]].
  - intros f. cbn. split; intuition discriminate.
  - repeat constructor; cbn; intuition discriminate.
  - eexists. split; reflexivity.
Qed.

(** A label announced for two modules is written twice. *)
Theorem C54_twice_refuted :
  exists ops s, sym_run sym_new ops = ROk s /\
    forall hex8 hex4, written_entries hex8 hex4 (fun x => x) 2 s = [(0x100, "main"%string); (0x100, "main"%string)].
Proof. exists two_modules. eexists. split; [reflexivity|]. intros. reflexivity. Qed.
Print Assumptions C54_twice_refuted.

(** A function that is still open when the module changes is ended in the wrong module: outside
    the list of functions of that module. *)
Theorem C54_open_function_refuted : sym_run sym_new function_over_module = RUb.
Proof. reflexivity. Qed.
Print Assumptions C54_open_function_refuted.

(** Of two functions at one address only the first counts, whose size is zero. *)
Theorem C54_size_lost_refuted :
  functions same_start = [(0x100, 0); (0x100, 0x20)] /\
  exists s, sym_run sym_new same_start = ROk s /\
    forall hex8 hex4, written_entries hex8 hex4 (fun x => x) 2 s = [(0x100, "f"%string)].
Proof. split; [reflexivity|]. eexists. split; [reflexivity|]. intros. reflexivity. Qed.
Print Assumptions C54_size_lost_refuted.
