(** Thumb properties: C34 (branches), C62 (operands), C21 (sizes). *)

Require Import ZArith Bool List String.
Require Import Verif.Ints Verif.Res Verif.ArmModel Verif.ThumbModel Verif.ThumbSpec Verif.ThumbProofs Verif.ThumbBranchProofs.
Import ListNotations.
Local Open Scope Z_scope.

(** Operands for the examples: [rd], [rs], [rn], [ro] and a register list. *)
Definition tin (name mask : string) (rd rs rn ro rlist : Z) : thumb_in :=
  match thumb_row name mask with
  | Some o => mkThumbIn o rd rs rn ro (mask_bitlen mask) rlist
  | None => mkThumbIn (mkThumbOp "" "" 0 0 0 0) 0 0 0 0 0 0
  end.
Ltac is_parsed := split; [reflexivity|reflexivity|reflexivity|vm_compute; intuition congruence].

(** * C34 *)

(** A branch that is accepted goes to the written address (modulo 2^32) and is of the written kind;
    one that is refused is out of reach or odd.  Missing: [blx] at an address that is not a multiple
    of 4 to the farthest distance, and instructions at odd addresses, see below. *)
Theorem C34_branch_partial : forall f name mask i ramPos z pool, parsed name mask f i -> is_branch f = true ->
  0 <= ramPos < 2 ^ 32 -> ramPos mod 2 = 0 -> (f = FLongX -> s32 (z - ramPos - 4) <> 0x3FFFFE) ->
  match thumb_assemble i ramPos (IInt z) pool with
  | ROk ws => thumb_target ramPos ws = Some (u32 z) /\ thumb_kind ws = branch_kind f
  | RErr => thumb_branch f z ramPos = false
  | RUb => False
  end.
Proof. exact branches. Qed.
Print Assumptions C34_branch_partial.
Definition ex_mask (n : nat) : string := ("/#I" ++ chr n)%string.
Example C34_ex :
  parsed "bne" (ex_mask 8) (FBranchIf 1) (tin "bne" (ex_mask 8) 0 0 0 0 0) /\
  parsed "blx" (ex_mask 22) FLongX (tin "blx" (ex_mask 22) 0 0 0 0 0) /\
  thumb_assemble (tin "bne" (ex_mask 8) 0 0 0 0 0) 0x8000 (IInt 0x7F04) 0 = ROk [0xD180] /\
  thumb_target 0x8000 [0xD180] = Some 0x7F04 /\
  thumb_assemble (tin "blx" (ex_mask 22) 0 0 0 0 0) 0x8002 (IInt 0x9000) 0 = ROk [0xF000; 0xEFFE] /\
  thumb_target 0x8002 [0xF000; 0xEFFE] = Some 0x9000.
Proof. split; [is_parsed|]. split; [is_parsed|]. vm_compute. auto. Qed.

(** [blx] at 0x8002 to a target 0x3FFFFE bytes behind it is accepted and jumps backwards. *)
Theorem C34_blx_far_refuted : exists i ramPos z ws,
  parsed "blx" (ex_mask 22) FLongX i /\ ramPos mod 2 = 0 /\ 0 <= ramPos < 2 ^ 32 /\
  thumb_assemble i ramPos (IInt z) 0 = ROk ws /\ thumb_target ramPos ws <> Some (u32 z).
Proof.
  exists (tin "blx" (ex_mask 22) 0 0 0 0 0), 0x8002, 0x408004, [0xF400; 0xE800].
  split; [is_parsed|]. vm_compute. intuition congruence.
Qed.
Print Assumptions C34_blx_far_refuted.
(** At an odd address, which is only warned about, [b] misses its target by one byte. *)
Theorem C34_odd_address_refuted : exists i ramPos z ws,
  parsed "b" (ex_mask 11) FBranch i /\ 0 <= ramPos < 2 ^ 32 /\
  thumb_assemble i ramPos (IInt z) 0 = ROk ws /\ thumb_target ramPos ws <> Some (u32 z).
Proof.
  exists (tin "b" (ex_mask 11) 0 0 0 0 0), 0x8001, 0x8010, [0xE005].
  split; [is_parsed|]. vm_compute. intuition congruence.
Qed.
Print Assumptions C34_odd_address_refuted.

(** * C62 *)

(** Every instruction other than a branch, with a 32-bit value, is emitted as one halfword that
    decodes to the instruction written, and it is refused when there is none.  Missing: values of
    more than 32 bits, register lists with foreign registers, and [ldr rd,\[r15\]], see below. *)
Theorem C62_decode_partial : forall f name mask i ramPos z pool, parsed name mask f i ->
  is_branch f = false -> is_list f = false -> f <> FLoadPc0 -> f <> FLoadPool ->
  is_int32 z -> 0 <= ramPos < 2 ^ 32 -> ramPos mod 2 = 0 ->
  match thumb_assemble i ramPos (IInt z) pool with
  | ROk [w] => exists x, thumb_meaning f (operands_of i) z ramPos = Some x /\ thumb_decode w = Some x /\ 0 <= w < 65536
  | ROk _ => False
  | RErr => thumb_meaning f (operands_of i) z ramPos = None
  | RUb => False
  end.
Proof. exact others. Qed.
Print Assumptions C62_decode_partial.
(** A literal pool load decodes to a load from the entry the pool assigned. *)
Theorem C62_pool : forall name mask i ramPos v pool, parsed name mask FLoadPool i -> v <> IBad ->
  0 <= ramPos < 2 ^ 32 -> ramPos mod 2 = 0 -> pool mod 4 = 0 ->
  match thumb_assemble i ramPos v pool with
  | ROk [w] => exists x, thumb_meaning FLoadPool (operands_of i) pool ramPos = Some x /\ thumb_decode w = Some x /\ 0 <= w < 65536
  | ROk _ => False
  | RErr => thumb_meaning FLoadPool (operands_of i) pool ramPos = None
  | RUb => False
  end.
Proof. exact form_pool. Qed.
Print Assumptions C62_pool.
(** Register lists the instruction can hold are encoded as written. *)
Theorem C62_lists_partial : forall f name mask i ramPos v pool m, parsed name mask f i -> is_list f = true ->
  thumb_meaning f (operands_of i) 0 ramPos = Some m ->
  exists w, thumb_assemble i ramPos v pool = ROk [w] /\ thumb_decode w = Some m.
Proof. exact form_list. Qed.
Print Assumptions C62_lists_partial.

Local Open Scope string_scope.
Definition ex_push : string := "/{R" ++ chr 255 ++ chr 64 ++ "/}".
Definition ex_add : string := "d,s,/#i" ++ chr 3.
Definition ex_mov : string := "d,/#i" ++ chr 8.
Definition ex_ldr : string := "d,[r" ++ chr 15 ++ "]".
Local Close Scope string_scope.
(** add r1,r2,-3;  push {r0,r4-r7,r14};  ldr r3,=... with the entry at 0x8010 *)
Example C62_ex :
  parsed "add" ex_add (FAddImm false) (tin "add" ex_add 1 2 0 0 0) /\
  thumb_assemble (tin "add" ex_add 1 2 0 0 0) 0x8000 (IInt (-3)) 0 = ROk [0x1ED1] /\
  thumb_meaning (FAddImm false) (operands_of (tin "add" ex_add 1 2 0 0 0)) (-3) 0x8000 = Some (TAddImm true 1 2 3) /\
  parsed "push" ex_push FPush (tin "push" ex_push 0 0 0 0 0x40F1) /\
  thumb_assemble (tin "push" ex_push 0 0 0 0 0x40F1) 0x8000 IBad 0 = ROk [0xB5F1].
Proof. split; [is_parsed|]. split; [reflexivity|]. split; [reflexivity|]. split; [is_parsed|reflexivity]. Qed.

(** mov r0,0x100000001 is accepted as mov r0,1. *)
Theorem C62_truncation_refuted : exists i z w,
  parsed "mov" ex_mov (FImm 0) i /\ is_int64 z /\ thumb_meaning (FImm 0) (operands_of i) z 0 = None /\
  thumb_assemble i 0 (IInt z) 0 = ROk [w].
Proof.
  exists (tin "mov" ex_mov 0 0 0 0 0), 0x100000001, 0x2001. split; [is_parsed|]. vm_compute. intuition congruence.
Qed.
Print Assumptions C62_truncation_refuted.
(** push {r8} passes the check of the list when [char] is signed, and r8 is dropped. *)
Theorem C62_list_refuted : exists i w,
  parsed "push" ex_push FPush i /\ list_accepted true 255 64 (h_rlist i) = true /\
  thumb_meaning FPush (operands_of i) 0 0 = None /\ thumb_assemble i 0 IBad 0 = ROk [w] /\ thumb_decode w = Some (TPush 0 false).
Proof.
  exists (tin "push" ex_push 0 0 0 0 0x100), 0xB400. split; [is_parsed|]. vm_compute. auto.
Qed.
Print Assumptions C62_list_refuted.
(** ldr r3,[r15] encodes an offset that was never set. *)
Theorem C62_load_pc_refuted : exists i, parsed "ldr" ex_ldr FLoadPc0 i /\
  forall ramPos v pool, thumb_assemble i ramPos v pool = RUb.
Proof. exists (tin "ldr" ex_ldr 3 0 0 0 0). split; [is_parsed|]. intros. reflexivity. Qed.
Print Assumptions C62_load_pc_refuted.
(** With an unsigned [char] exactly the registers of the instruction pass. *)
Theorem C62_list_unsigned : forall rlist, 0 <= rlist < 65536 ->
  list_accepted false 255 64 rlist = (Z.land rlist (Z.lnot 0x40FF) =? 0).
Proof. exact list_unsigned. Qed.
Print Assumptions C62_list_unsigned.

(** * C21, instructions *)

(** A Thumb instruction writes as many bytes as its size says: 4 for long branches, else 2. *)
Theorem C21_thumb_size : forall i ramPos v pool ws, In (h_op i) ThumbOpcodes ->
  thumb_assemble i ramPos v pool = ROk ws ->
  2 * Z.of_nat (List.length ws) = if thas (h_op i) THUMB_LONG then 4 else 2.
Proof. exact thumb_size. Qed.
Print Assumptions C21_thumb_size.
Example C21_thumb_ex : In (h_op (tin "blx" (ex_mask 22) 0 0 0 0 0)) ThumbOpcodes.
Proof. vm_compute. tauto. Qed.
