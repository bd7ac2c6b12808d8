(** The tokenizer decodes the same characters (Parser/Tokenizer.cpp, character constants). *)

Require Import ZArith List Bool Lia ZifyBool String Ascii.
From Verif Require Import Ints IntsLemmas Res ReaderModel ReaderSpec ReaderProofs LexModel.
Import ListNotations.
Local Open Scope Z_scope.

Fixpoint byte_string (l : list Z) (rest : string) : string :=
  match l with [] => rest | b :: l => String (ascii_of_N (Z.to_N b)) (byte_string l rest) end.

Definition sc b := scode (ascii_of_N (Z.to_N b)).
Lemma s_ascii b : 0 <= b < 128 -> (Z.land (sc b) 224 =? 192) = false /\ (Z.land (sc b) 240 =? 224) = false /\ sc b = b.
Proof.
  intros H.
  pose proof (by_bytes (fun b => implb (b <? 128) (negb (Z.land (sc b) 224 =? 192) && negb (Z.land (sc b) 240 =? 224) && (sc b =? b))) eq_refl b) as P.
  cbv beta in P. lia.
Qed.
Lemma s_lead2 x : 0 <= x < 32 -> (Z.land (sc (192 + x)) 224 =? 192) = true /\ Z.land (sc (192 + x)) 31 = x.
Proof.
  intros H.
  pose proof (by_bytes (fun x => implb (x <? 32) ((Z.land (sc (192 + x)) 224 =? 192) && (Z.land (sc (192 + x)) 31 =? x))) eq_refl x) as P.
  cbv beta in P. lia.
Qed.
Lemma s_lead3 x : 0 <= x < 16 ->
  (Z.land (sc (224 + x)) 224 =? 192) = false /\ (Z.land (sc (224 + x)) 240 =? 224) = true /\ Z.land (sc (224 + x)) 15 = x.
Proof.
  intros H.
  pose proof (by_bytes (fun x => implb (x <? 16) (negb (Z.land (sc (224 + x)) 224 =? 192) && (Z.land (sc (224 + x)) 240 =? 224) && (Z.land (sc (224 + x)) 15 =? x))) eq_refl x) as P.
  cbv beta in P. lia.
Qed.
Lemma s_cont x : 0 <= x < 64 -> Z.land (sc (128 + x)) 63 = x.
Proof.
  intros H.
  pose proof (by_bytes (fun x => implb (x <? 64) (Z.land (sc (128 + x)) 63 =? x)) eq_refl x) as P.
  cbv beta in P. lia.
Qed.

Lemma substring_full r : substring 0 (String.length r) r = r.
Proof. induction r as [|c r IH]; [reflexivity|]. cbn. rewrite IH. reflexivity. Qed.

Lemma decode_utf8_char c rest : is_char c -> decode_utf8 (byte_string (utf8 c) rest) = ROk (c, rest).
Proof.
  intros Hc. destruct (char_parts c Hc) as (P1 & _ & _ & P4 & P5 & P6). pose proof Hc as Hc'. unfold is_char in Hc'.
  unfold utf8. destruct (c <? 128) eqn:E1; [|destruct (c <? 2048) eqn:E2]; cbn [byte_string]; unfold decode_utf8;
    unfold char_at; cbn [String.get rbind].
  - fold (sc c). destruct (s_ascii c) as (A & B & D); [lia|]. rewrite A, B, D.
    cbn [String.length substring Nat.sub]. rewrite Nat.sub_0_r, substring_full. rewrite u32_small by lia. reflexivity.
  - fold (sc (192 + c / 64)) (sc (128 + c mod 64)). destruct (s_lead2 (c / 64)) as (A & B); [apply P6; lia|].
    rewrite A, B, s_cont by lia. rewrite join6 by lia.
    cbn [String.length substring Nat.sub]. rewrite Nat.sub_0_r, substring_full. do 2 f_equal.
    pose proof (Z.div_mod c 64). lia.
  - fold (sc (224 + c / 4096)) (sc (128 + c mod 64)) (sc (128 + (c / 64) mod 64)). destruct (s_lead3 (c / 4096) P1) as (A & B & D).
    rewrite A, B, D, !s_cont by lia. rewrite !join6 by lia.
    cbn [String.length substring Nat.sub]. rewrite Nat.sub_0_r, substring_full. do 2 f_equal.
    pose proof (Z.div_mod c 64). pose proof (Z.div_mod (c / 64) 64).
    rewrite (Z.div_div c 64 64) in * by lia. change (64 * 64) with 4096 in *. lia.
Qed.
