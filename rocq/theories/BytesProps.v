(** Property theorems C56 (byte buffers). *)

Require Import ZArith List Lia.
From Verif Require Import Ints Res BytesModel BytesSpec BytesIface BytesProofs.
Import ListNotations.

(** *** C56 *)

(** After every history of operations on existing positions the buffer has the length and the bytes
    the list of bytes has; bytes added by resize are unspecified until they are written. *)
Theorem C56_contents : forall b s, reached b s -> agrees (contents b) s.
Proof. intros b s H. exact (proj2 (reached_agrees b s H)). Qed.
Print Assumptions C56_contents.

(** No such operation accesses memory outside the allocation, and all of them finish. *)
Theorem C56_defined : forall b s o, reached b s -> allowed o s -> exists b', perform o b = ROk b'.
Proof. exact never_undefined. Qed.
Print Assumptions C56_defined.

(** Reading words gives the number their bytes spell. *)
Theorem C56_get_word : forall b s pos big d0 d1, reached b s ->
  nth_error s pos = Some (Some d0) -> nth_error s (pos + 1) = Some (Some d1) -> is_byte d0 -> is_byte d1 ->
  get_word b pos big = ROk (if big then number [d1; d0] else number [d0; d1]).
Proof. exact get_word_value. Qed.
Print Assumptions C56_get_word.

Theorem C56_get_dword : forall b s pos big d0 d1 d2 d3, reached b s ->
  nth_error s pos = Some (Some d0) -> nth_error s (pos + 1) = Some (Some d1) ->
  nth_error s (pos + 2) = Some (Some d2) -> nth_error s (pos + 3) = Some (Some d3) ->
  is_byte d0 -> is_byte d1 -> is_byte d2 -> is_byte d3 ->
  get_dword b pos big = ROk (s32 (if big then number [d3; d2; d1; d0] else number [d0; d1; d2; d3])).
Proof. exact get_dword_value. Qed.
Print Assumptions C56_get_dword.

(** A word that was replaced is read back; outside the buffer nothing is written and -1 is read. *)
Theorem C56_word_round_trip : forall b s pos w big b', reached b s -> pos + 2 <= length s ->
  perform (ReplaceWord pos w big) b = ROk b' -> get_word b' pos big = ROk (u16 w).
Proof. exact replaced_word. Qed.
Print Assumptions C56_word_round_trip.

Theorem C56_dword_round_trip : forall b s pos w big b', reached b s -> pos + 4 <= length s ->
  perform (ReplaceDword pos w big) b = ROk b' -> get_dword b' pos big = ROk (s32 w).
Proof. exact replaced_dword. Qed.
Print Assumptions C56_dword_round_trip.

Theorem C56_word_outside : forall b s pos w big, reached b s -> length s < pos + 2 ->
  get_word b pos big = ROk (-1)%Z /\ perform (ReplaceWord pos w big) b = ROk b.
Proof. exact word_outside. Qed.
Print Assumptions C56_word_outside.

Theorem C56_dword_outside : forall b s pos w big, reached b s -> length s < pos + 4 ->
  get_dword b pos big = ROk (-1)%Z /\ perform (ReplaceDword pos w big) b = ROk b.
Proof. exact dword_outside. Qed.
Print Assumptions C56_dword_outside.

(** A history: append 1 2 3, align to 8, write a big-endian word at 4, keep bytes 2..7. *)
Example C56_ex : exists b, reached b (map Some [3; 0; 171; 205; 0; 0])%Z /\
  get_word b 2 true = ROk 0xABCD%Z /\ get_word b 2 false = ROk 0xCDAB%Z /\ get_word b 5 true = ROk (-1)%Z.
Proof.
  destruct (perform (Append [1; 2; 3]%Z) empty_buffer) as [b1| |] eqn:E1; try discriminate E1.
  pose proof (reached_op _ _ _ _ reached_nil (I : allowed (Append [1; 2; 3]%Z) _) E1) as R1.
  destruct (perform (AlignSize 8) b1) as [b2| |] eqn:E2;
    [|exfalso; destruct (never_undefined _ _ (AlignSize 8) R1 I); congruence
     |exfalso; destruct (never_undefined _ _ (AlignSize 8) R1 I); congruence].
  pose proof (reached_op _ _ _ _ R1 (I : allowed (AlignSize 8) _) E2) as R2.
  destruct (never_undefined _ _ (ReplaceWord 4 0xABCD true) R2 I) as (b3 & E3).
  pose proof (reached_op _ _ _ _ R2 (I : allowed (ReplaceWord 4 0xABCD true) _) E3) as R3.
  assert (A : allowed (Mid 2 6) (spec (ReplaceWord 4 0xABCD true) (spec (AlignSize 8) (spec (Append [1;2;3]%Z) []))))
    by (cbn; lia).
  destruct (never_undefined _ _ _ R3 A) as (b4 & E4).
  pose proof (reached_op _ _ _ _ R3 A E4) as R4.
  exists b4. split; [exact R4|]. 
  repeat split;
    [erewrite get_word_value by (try exact R4; try reflexivity; unfold is_byte; lia); reflexivity
    |erewrite get_word_value by (try exact R4; try reflexivity; unfold is_byte; lia); reflexivity
    |eapply (word_outside _ _ _ 0%Z); [exact R4|cbn; lia]].
Qed.
