(** Property C93: operands of the vector unit mean what is written. *)

Require Import ZArith Bool List String Ascii Lia.
From Verif Require Import Ints ParseModel VfpuModel VfpuSpec VfpuProofs VfpuRotProofs.
Import ListNotations.
Local Open Scope string_scope.
Local Open Scope list_scope.
Local Open Scope Z_scope.

(** vpfxs and vpfxt: what is accepted are four lanes; the bits mean these lanes to the unit; any four lanes are accepted. *)
Theorem C93_sources ts n t r : t <> TDiv -> vpfxs ts = Some (n, t :: r) ->
  exists a b c d, ts = four write_source a b c d ++ t :: r /\ 0 <= n < 2 ^ 20 /\ map (source_of n) [0; 1; 2; 3] = [a; b; c; d].
Proof. intros T H. apply (vpfxs_iff ts n (t :: r) (ex_intro _ t (ex_intro _ r (conj eq_refl T)))) in H. destruct H as (a & b & c & d & E & B & M & _). exists a, b, c, d. auto. Qed.
Print Assumptions C93_sources.
Theorem C93_sources_accepted a b c d t r : t <> TDiv -> exists n, vpfxs (four write_source a b c d ++ t :: r) = Some (n, t :: r).
Proof.
  intros T. exists (encode4 a b c d). apply (vpfxs_iff _ _ (t :: r) (ex_intro _ t (ex_intro _ r (conj eq_refl T)))). exists a, b, c, d. pose proof (decode4 a b c d). pose proof (encode4_small a b c d). auto.
Qed.
Print Assumptions C93_sources_accepted.

(** vpfxd: the same with what can be done to the lanes of the result; a lane may be left empty. *)
Theorem C93_destinations ts n r : vpfxd ts = Some (n, TSeparator :: r) ->
  exists a b c d, ts = four write_dest a b c d ++ TSeparator :: r /\ 0 <= n < 2 ^ 12 /\ map (dest_of n) [0; 1; 2; 3] = [Some a; Some b; Some c; Some d].
Proof. exact (vpfxd_sound ts n r). Qed.
Print Assumptions C93_destinations.
Theorem C93_destinations_accepted a b c d r : exists n, vpfxd (four write_dest a b c d ++ TSeparator :: r) = Some (n, TSeparator :: r).
Proof. exact (vpfxd_complete a b c d r). Qed.
Print Assumptions C93_destinations_accepted.

(** vrot: an accepted rotation has one lane for each of the vector, and the unit puts there what is written. *)
Theorem C93_rotations size ts n rest : 0 <= size <= 3 -> vrot size ts = Some (n, rest) ->
  exists l t1 t2 ws, List.length l = Z.to_nat (size + 1) /\ rlanes_written l ws /\ ts = (TLBrack, t1) :: ws ++ (TRBrack, t2) :: rest /\
    0 <= n < 32 /\ rotation_of n (Z.to_nat (size + 1)) = l /\ ~ Forall (eq Zero) l.
Proof. exact (vrot_sound size ts n rest). Qed.
Print Assumptions C93_rotations.
(** Any rotation of the unit that is not all zero is accepted. *)
Theorem C93_rotations_accepted_partial size l ws t1 t2 rest m : 0 <= size <= 3 -> List.length l = Z.to_nat (size + 1) -> rlanes_written l ws ->
  0 <= m < 32 -> rotation_of m (Z.to_nat (size + 1)) = l -> ~ Forall (eq Zero) l ->
  exists n, vrot size ((TLBrack, t1) :: ws ++ (TRBrack, t2) :: rest) = Some (n, rest).
Proof. exact (vrot_complete size l ws t1 t2 rest m). Qed.
Print Assumptions C93_rotations_accepted_partial.
(** A vector of two lanes with neither sine nor cosine can be had from the unit, but is refused. *)
Theorem C93_rotations_refuted : exists l ws m, List.length l = 2%nat /\ rlanes_written l ws /\ 0 <= m < 32 /\ rotation_of m 2 = l /\
  vrot 1 ((TLBrack, "[") :: ws ++ [(TRBrack, "]")]) = None.
Proof.
  exists [Zero; Zero], ([(TInt 0, "0")] ++ (TComma, ",") :: [(TInt 0, "0")]), 14. split; [reflexivity|]. split; [apply w_more; [constructor|apply w_one; constructor]|].
  split; [lia|]. split; vm_compute; reflexivity.
Qed.
Print Assumptions C93_rotations_refuted.

(** vcst: the constants, each by its number. *)
Theorem C93_constants ts n rest : vcst ts = Some (n, rest) -> exists w, ts = w ++ rest /\ constant n w.
Proof. exact (vcst_sound ts n rest). Qed.
Print Assumptions C93_constants.
Theorem C93_constants_accepted_partial n w r : constant n w -> vcst (w ++ TSeparator :: r) = Some (n, TSeparator :: r).
Proof. exact (vcst_complete n w r). Qed.
Print Assumptions C93_constants_accepted_partial.
(** sqrt(0.5) is in the list of constants, but can not be written. *)
Theorem C93_constants_refuted rest : (exists e, In e vcst_entries /\ en_result e = 3 /\ en_values e = [WText "sqrt"; WFloat] /\
    Forall2 (fun y t => has_type y t = true) (en_types e) sqrt_half) /\ vcst (sqrt_half ++ rest) = None.
Proof.
  split; [|exact (vcst_half rest)]. exists (nth 3 vcst_entries (mkEntry 0 [] [])). split; [right; right; right; left; reflexivity|].
  split; [reflexivity|]. split; [reflexivity|]. unfold sqrt_half. cbn [nth vcst_entries en_types]. repeat constructor.
Qed.
Print Assumptions C93_constants_refuted.

(** vpfxs -|y|,1/6,x,-3; vpfxd ,m,[0:1],[-1:1]; vrot.q [c,-s,-s,-s]; vcst 2*pi *)
Example C93_case :
  let rest := [TSeparator] in
  vpfxs (four write_source (Lane true true LY) (Const false Ksixth) (Lane false false LX) (Const true K3) ++ rest) = Some (0x9ab0d, rest) /\
  map (source_of 0x9ab0d) [0; 1; 2; 3] = [Lane true true LY; Const false Ksixth; Lane false false LX; Const true K3] /\
  vpfxd (four write_dest Keep Mask Sat0 Sat1 ++ rest) = Some (0x2d0, rest) /\
  vrot 3 [(TLBrack, "["); (TIdent "c", "c"); (TComma, ","); (TMinus, "-"); (TIdent "s", "s"); (TComma, ","); (TMinus, "-"); (TIdent "s", "s"); (TComma, ",");
    (TMinus, "-"); (TIdent "s", "s"); (TRBrack, "]")] = Some (16, []) /\
  rotation_of 16 4 = [Cos; Sin true; Sin true; Sin true] /\
  vcst [TInt 2; TMult; TIdent "pi"; TSeparator] = Some (15, rest) /\ vcst [TInt 3; TSeparator] = None.
Proof. vm_compute. repeat split. Qed.
