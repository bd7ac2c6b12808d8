(** SuperH instructions: addresses and values. *)

Require Import ZArith Lia Bool List String Ascii.
Require Import ZifyBool.
Require Import Verif.Ints Verif.IntsLemmas Verif.BitFields Verif.Res Verif.ShTable Verif.ShModel Verif.ShSpec Verif.ShProofs Verif.ShWords Verif.ShUsualProofs.
Import ListNotations.
Local Open Scope string_scope.
Local Open Scope list_scope.
Local Open Scope Z_scope.

Lemma assemble_range pc name ps w : sh_assemble pc name ps = ROk w -> 0 <= w < 65536.
Proof.
  unfold sh_assemble. destruct (parse_rows name ps shOpcodes) as [[o i]|]; [|discriminate].
  destruct (sh_validate o pc i) as [v| |]; try discriminate. cbn [rbind]. intros E. apply ROk_inj in E. subst w.
  unfold sh_encode, u16. apply Z.mod_pos_bound. lia.
Qed.

(** ** Addresses *)

Lemma spelled_first o os syms : In syms (spelled (o :: os)) ->
  exists a t, In a (spellings o) /\ syms = a ++ t /\ (t = [] \/ exists r, t = Char ","%char :: r).
Proof.
  destruct os as [|o' os]; cbn [spelled].
  - intros H. exists syms, []. rewrite app_nil_r. auto.
  - intros H. apply in_flat_map in H. destruct H as (a & A & H). apply in_map_iff in H. destruct H as (b & <- & B).
    exists a, (Char ","%char :: b). split; [exact A|]. split; [reflexivity|]. right. exists b. reflexivity.
Qed.

Lemma first_number pc x t p r : Forall2 (stands_for pc) (Number x :: t) (p :: r) -> (t = [] \/ exists u, t = Char ","%char :: u) ->
  exists z, value_of p = Some z /\ means pc x z /\ forall q, r <> SSym "("%char :: q.
Proof.
  intros F T. inversion F as [|? ? ? ? S1 F']. subst. cbn [stands_for] in S1. destruct S1 as (z & V & M). exists z. split; [exact V|]. split; [exact M|].
  intros q ->. destruct T as [-> | (u & ->)]; inversion F' as [|? ? ? ? S2]. subst. cbn [stands_for] in S2. discriminate S2.
Qed.

Lemma rest_addressed pc o os syms rest a : In syms (spelled (o :: os)) -> Forall2 (stands_for pc) syms rest ->
  match o with
  | Near d => a = u32 (pc + 4 + 2 * d)
  | Pcr scale d => a = u32 (pc_base scale pc + scale * d)
  | _ => False
  end -> addressed pc rest a.
Proof.
  intros IN F A. destruct (spelled_first _ _ _ IN) as (s & t & SP & -> & T). destruct o; try contradiction; cbn [spellings] in SP.
  - destruct SP as [<- | [<- | []]].
    + destruct rest as [|p r]; [inversion F|]. destruct (first_number _ _ _ _ _ F T) as (z & V & M & Q). cbn [means] in M.
      rewrite A, <- M. exact (direct pc p r z V Q).
    + unfold near_at in F. cbn [app] in F. inversion F as [|? p1 ? r1 S1 F1]. subst. inversion F1 as [|? p2 ? r2 S2 F2]. subst. inversion F2 as [|? p3 ? r3 S3 F3]. subst.
      cbn [stands_for] in S1, S2. destruct p1 as [[|c1 s1] v1| |]; try contradiction. destruct p2 as [| |c2]; try contradiction. subst.
      destruct S3 as (z & V & M). cbn [means] in M. rewrite <- M. exact (displaced pc _ _ p3 r3 z V).
  - destruct SP as [<- | []]. destruct rest as [|p r]; [inversion F|]. destruct (first_number _ _ _ _ _ F T) as (z & V & M & Q). cbn [means] in M.
    rewrite A, <- M. exact (direct pc p r z V Q).
Qed.

Theorem assemble_target pc name ps w a : sh_assemble pc name ps = ROk w -> sh_target pc w = Some a -> addressed pc ps a.
Proof.
  intros E T. destruct (sh_assemble_writes pc name ps w E) as (x & D & rest & syms & IN & F & TX).
  unfold sh_target in T. rewrite D in T. destruct x as [n [|o os]]; [discriminate|].
  assert (AD : addressed pc rest a).
  { apply (rest_addressed pc o os syms rest a IN F). destruct o; try discriminate; injection T as <-; reflexivity. }
  cbn [fst] in TX. destruct (cut n) as [b [c|]].
  - destruct TX as (_ & v & ->). constructor. exact AD.
  - destruct TX as [_ ->]. exact AD.
Qed.

(** The operands ask for one address only. *)
Lemma addressed_unique pc ps a : addressed pc ps a -> forall b, addressed pc ps b -> a = b.
Proof.
  induction 1 as [p r z V Q|s v p r z V|b v r a A IH]; intros c B; inversion B; subst;
    try (exfalso; match goal with H : forall q, _ <> _ |- _ => exact (H _ eq_refl) end);
    try (match goal with H : value_of (SSym _) = Some _ |- _ => discriminate H end); try congruence.
  apply IH. assumption.
Qed.

(** ** Values *)

Definition field_value_ok (x : instr) (y : sym) : bool :=
  match y with
  | Number (Field wd s d) =>
    match the_operand x with
    | Some (Imm e) | Some (Vector e) => (wd =? 8) && (s =? 1) && (d =? e)
    | Some (Disp s' e _) => (wd =? 4) && ((s =? 1) || (s =? 2) || (s =? 4)) && (s =? s') && (d =? e)
    | Some (Gbr s' e) => (wd =? 8) && ((s =? 1) || (s =? 2) || (s =? 4)) && (s =? s') && (d =? e)
    | _ => false
    end
  | _ => true
  end.
Definition values_ok (w : Z) : bool :=
  match sh_decode w with
  | None => true
  | Some x => forallb (forallb (field_value_ok x)) (spelled (snd x))
  end.
Lemma all_values_ok : forallb (fun a => forallb (fun b => values_ok (a * 256 + b)) (upto 256)) (upto 256) = true.
Proof. vm_compute. reflexivity. Qed.
Lemma value_is_ok w : 0 <= w < 65536 -> values_ok w = true.
Proof. exact (square_in values_ok all_values_ok w). Qed.

Lemma s8_back v : -128 <= v <= 127 -> s8 (v mod 256) = v.
Proof. intros H. unfold s8. destruct (_ <? _) eqn:E; Z.div_mod_to_equations; lia. Qed.
Lemma value_stands pc x y p : field_value_ok x y = true -> stands_for pc y p -> stands_for_value x y p.
Proof.
  destruct y as [| | | | |[wd s d| | |]]; cbn [stands_for_value]; auto. cbn [field_value_ok stands_for]. intros K (z & V & M & N).
  destruct (the_operand x) as [o|]; [|discriminate]. exists z, o. split; [exact V|]. split; [reflexivity|].
  destruct o; try discriminate; cbn [operand_range operand_value fst snd]; intros R; rewrite ?andb_true_iff in K.
  - destruct K as [[[K1 K2] K3] K4]. assert (wd = 4) by lia. assert (d0 = d) by lia. assert (scale = s) by lia. subst. f_equal. change (2 ^ 4) with 16.
    assert (s = 1 \/ s = 2 \/ s = 4) as [-> | [-> | ->]] by lia; Z.div_mod_to_equations; lia.
  - destruct K as [[[K1 K2] K3] K4]. assert (wd = 8) by lia. assert (d0 = d) by lia. assert (scale = s) by lia. subst. f_equal. change (2 ^ 8) with 256.
    assert (s = 1 \/ s = 2 \/ s = 4) as [-> | [-> | ->]] by lia; Z.div_mod_to_equations; lia.
  - destruct K as [[K1 K2] K3]. assert (wd = 8) by lia. assert (d0 = d) by lia. assert (s = 1) by lia. subst. f_equal. change (2 ^ 8) with 256.
    rewrite Z.div_1_r. destruct (sign_extends (fst x)); cbn [fst snd] in R; [apply s8_back, R|apply Z.mod_small; lia].
  - destruct K as [[K1 K2] K3]. assert (wd = 8) by lia. assert (d0 = d) by lia. assert (s = 1) by lia. subst. f_equal. change (2 ^ 8) with 256.
    rewrite Z.div_1_r. apply Z.mod_small. lia.
Qed.
Theorem assemble_value pc name ps w : sh_assemble pc name ps = ROk w -> exists x, sh_decode w = Some x /\ writes_value x ps.
Proof.
  intros E. destruct (sh_assemble_writes pc name ps w E) as (x & D & rest & syms & IN & F & TX). exists x. split; [exact D|].
  pose proof (value_is_ok w (assemble_range _ _ _ _ E)) as K. unfold values_ok in K. rewrite D in K.
  pose proof (forallb_in _ _ _ _ K IN) as K1.
  assert (FV : Forall2 (stands_for_value x) syms rest).
  { clear -K1 F. induction F as [|y p syms rest S1 F IH]; [constructor|]. cbn [forallb] in K1. apply andb_true_iff in K1. destruct K1 as [K1 K2].
    constructor; [exact (value_stands pc x y p K1 S1)|exact (IH K2)]. }
  destruct (cut (fst x)) as [b [c|]].
  - destruct TX as (_ & v & ->). exists syms, [SSym "/"%char; SName c v], rest. auto.
  - destruct TX as [_ ->]. exists syms, [], rest. auto.
Qed.

(** ** Reach *)

Definition operand_eqb (a b : operand) : bool :=
  match a, b with
  | Near d, Near e => d =? e
  | Pcr s d, Pcr t e => (s =? t) && (d =? e)
  | Rn n, Rn m => n =? m
  | Sys s, Sys t => String.eqb s t
  | _, _ => false
  end.
Fixpoint operands_eqb (a b : list operand) : bool :=
  match a, b with
  | [], [] => true
  | x :: a, y :: b => operand_eqb x y && operands_eqb a b
  | _, _ => false
  end.
Lemma operands_eqb_eq a : forall b, operands_eqb a b = true -> a = b.
Proof.
  induction a as [|x a IH]; intros [|y b] H; try discriminate; [reflexivity|]. cbn [operands_eqb] in H. apply andb_true_iff in H. destruct H as [H1 H2].
  f_equal; [|apply IH, H2]. destruct x, y; try discriminate; cbn [operand_eqb] in H1; f_equal; try lia. apply String.eqb_eq, H1.
Qed.
Definition decodes_as (w : Z) (x : instr) : bool :=
  match sh_decode w with Some (n, ops) => String.eqb n (fst x) && operands_eqb ops (snd x) | None => false end.
Lemma decodes_as_eq w x : decodes_as w x = true -> sh_decode w = Some x.
Proof.
  unfold decodes_as. destruct (sh_decode w) as [[n ops]|]; [|discriminate]. intros H. apply andb_true_iff in H. destruct H as [H1 H2].
  apply String.eqb_eq in H1. apply operands_eqb_eq in H2. destruct x. cbn [fst snd] in *. congruence.
Qed.
Definition near_words : list (string * Z) := [("bt", 0x8900); ("bf", 0x8B00); ("bt/s", 0x8D00); ("bf/s", 0x8F00)].
Definition near_words12 : list (string * Z) := [("bra", 0xA000); ("bsr", 0xB000)].
Lemma near_8_words : forallb (fun nb => forallb (fun k => decodes_as (snd nb + (k - 128) mod 256) (fst nb, [Near (k - 128)])) (upto 256)) near_words = true.
Proof. vm_compute. reflexivity. Qed.
Lemma near_12_words : forallb (fun nb => forallb (fun k => decodes_as (snd nb + (k - 2048) mod 4096) (fst nb, [Near (k - 2048)])) (upto 4096)) near_words12 = true.
Proof. vm_compute. reflexivity. Qed.
Lemma load_words : forallb (fun d => forallb (fun r => decodes_as (0x9000 + 256 * r + d) ("mov.w", [Pcr 2 d; Rn r]) &&
  decodes_as (0xD000 + 256 * r + d) ("mov.l", [Pcr 4 d; Rn r])) (upto 16) && decodes_as (0xC700 + d) ("mova", [Pcr 4 d; Sys "r0"])) (upto 256) = true.
Proof. vm_compute. reflexivity. Qed.

Lemma relative_word x : relative x -> exists w, 0 <= w < 65536 /\ sh_decode w = Some x.
Proof.
  intros [n d N D|n d N D|d r D R|d r D R|d D].
  - assert (exists b, In (n, b) near_words /\ 0x8900 <= b <= 0x8F00) as (b & B & BR).
    { destruct N as [<- | [<- | [<- | [<- | []]]]]; [exists 0x8900|exists 0x8B00|exists 0x8D00|exists 0x8F00]; (split; [cbn; tauto|lia]). }
    pose proof (forallb_in _ _ _ _ near_8_words B) as K. cbv beta in K. pose proof (forallb_in _ _ _ (d + 128) K (in_upto 256 (d + 128) ltac:(lia))) as K1.
    cbv beta in K1. cbn [fst snd] in K1. replace (d + 128 - 128) with d in K1 by lia. exists (b + d mod 256). split; [pose proof (Z.mod_pos_bound d 256 eq_refl); lia|].
    apply decodes_as_eq, K1.
  - assert (exists b, In (n, b) near_words12 /\ 0xA000 <= b <= 0xB000) as (b & B & BR).
    { destruct N as [<- | [<- | []]]; [exists 0xA000|exists 0xB000]; (split; [cbn; tauto|lia]). }
    pose proof (forallb_in _ _ _ _ near_12_words B) as K. cbv beta in K. pose proof (forallb_in _ _ _ (d + 2048) K (in_upto 4096 (d + 2048) ltac:(lia))) as K1.
    cbv beta in K1. cbn [fst snd] in K1. replace (d + 2048 - 2048) with d in K1 by lia. exists (b + d mod 4096). split; [pose proof (Z.mod_pos_bound d 4096 eq_refl); lia|].
    apply decodes_as_eq, K1.
  - pose proof (forallb_in _ _ _ _ load_words (in_upto 256 d D)) as K. cbv beta in K. apply andb_true_iff in K. destruct K as [K _].
    pose proof (forallb_in _ _ _ _ K (in_upto 16 r R)) as K1. cbv beta in K1. apply andb_true_iff in K1.
    exists (0x9000 + 256 * r + d). split; [lia|]. apply decodes_as_eq, K1.
  - pose proof (forallb_in _ _ _ _ load_words (in_upto 256 d D)) as K. cbv beta in K. apply andb_true_iff in K. destruct K as [K _].
    pose proof (forallb_in _ _ _ _ K (in_upto 16 r R)) as K1. cbv beta in K1. apply andb_true_iff in K1.
    exists (0xD000 + 256 * r + d). split; [lia|]. apply decodes_as_eq, K1.
  - pose proof (forallb_in _ _ _ _ load_words (in_upto 256 d D)) as K. cbv beta in K. apply andb_true_iff in K.
    exists (0xC700 + d). split; [lia|]. apply decodes_as_eq, K.
Qed.

Theorem relative_reached pc x name ps : relative x -> pc mod 2 = 0 -> 0 <= pc -> furthest_back x = false -> usual_text pc x name ps ->
  exists w a, sh_assemble pc name ps = ROk w /\ sh_target pc w = Some a /\ addressed pc ps a.
Proof.
  intros R P PP F U. destruct (relative_word x R) as (w & W & D). pose proof (usual_accepted pc w x name ps W D P PP F U) as A.
  assert (exists a, sh_target pc w = Some a) as (a & T).
  { unfold sh_target. rewrite D. destruct R; eexists; reflexivity. }
  exists w, a. split; [exact A|]. split; [exact T|]. exact (assemble_target pc name ps w a A T).
Qed.
