(** Supporting proofs: no loop of the model runs out of fuel; the number of passes; alignment. *)

Require Import ZArith List Bool Lia ZifyBool.
From Verif Require Import Ints IntsLemmas Res FileModel BytesSpec FileSpec FileProofs AllocModel AsmModel AsmSpec AsmProofs AsmSimProofs AsmRunProofs.
Import ListNotations.
Local Open Scope Z_scope.
Ltac Zify.zify_post_hook ::= Z.div_mod_to_equations.

(** ** Totality *)

Definition fine {A} (r : res A) : Prop := r <> RErr.
Lemma fine_bind {A B} (r : res A) (f : A -> res B) : fine r -> (forall x, fine (f x)) -> fine (rbind r f).
Proof. unfold fine. intros H G. destruct r; cbn [rbind]; [apply G|congruence|discriminate]. Qed.
Lemma fine_ok {A} (x : A) : fine (ROk x). Proof. discriminate. Qed.
Lemma fine_ub {A} : fine (@RUb A). Proof. discriminate. Qed.
Ltac fine := repeat first [apply fine_ok | apply fine_ub | apply fine_bind; [|intros] | match goal with |- fine (if ?t then _ else _) => destruct t | |- fine (match ?x with _ => _ end) => destruct x end].

Lemma seek_fine w a : fine (w_seek w a).
Proof. unfold w_seek, seek_virtual, file_seek_virtual. fine. Qed.
Lemma seek_physical_fine w a : fine (w_seek_physical w a).
Proof. unfold w_seek_physical, seek_physical, file_seek_physical. fine. Qed.
Lemma advance_fine w a : fine (w_advance w a).
Proof. unfold w_advance, advance, file_seek_virtual. fine. Qed.
Lemma header_fine m h : fine (header_size m h).
Proof. unfold header_size, file_seek_physical. fine. Qed.
Lemma write_fine m l : fine (write m l).
Proof. unfold write. fine. Qed.

Section Total.
  Variable writable : nat -> bool.
  Variable own_big : bool.

  Lemma validate_fine passes c : forall nofile a w, fine (validate writable nofile passes c a w).
  Proof.
    induction c; intros nofile x w; cbn [validate ann] in *; try apply fine_ok.
    - apply fine_bind; [apply IHc1|]. intros [[a1 w1] b1]. apply fine_bind; [apply IHc2|]. intros [[a2 w2] b2]. apply fine_ok.
    - match goal with |- context [label_validate ?p ?q ?r ?s] => destruct (label_validate p q r s) as [[d w1] b1] end.
      apply fine_bind; [apply IHc|]. intros [[a2 w2] b2]. apply fine_ok.
    - unfold org_validate. destruct (eval e (view_of w)); [|apply fine_ok]. apply fine_bind; [|intros; apply fine_ok]. destruct physical; [apply seek_physical_fine|apply seek_fine].
    - unfold align_validate. destruct (eval value (view_of w)); [|apply fine_ok]. destruct (_ && (_ =? int64_min)); [apply fine_ub|]. destruct (_ && _); [apply fine_ok|].
      destruct (match fill with None => _ | Some e => _ end); [|apply fine_ok]. apply fine_bind; [apply advance_fine|intros; apply fine_ok].
    - unfold skip_validate. destruct (eval e (view_of w)); [|apply fine_ok]. apply fine_bind; [apply advance_fine|intros; apply fine_ok].
    - unfold header_validate. destruct (eval e (view_of w)); [|apply fine_ok]. apply fine_bind; [apply header_fine|intros; apply fine_ok].
    - unfold incbin_validate. destruct (match start with None => _ | Some e => _ end); [|apply fine_ok]. destruct (_ && _); [apply fine_ok|].
      destruct (match size with None => _ | Some e => _ end); [|apply fine_ok]. destruct (negb _); [apply fine_ub|]. apply fine_bind; [apply advance_fine|intros; apply fine_ok].
    - unfold data_validate. apply fine_bind; [apply advance_fine|intros; apply fine_ok].
    - destruct (cond_evaluate t w) as [w1 r]. destruct r; (apply fine_bind; [first [apply IHc1|apply IHc2]|]; intros [[a1 w2] b1]; apply fine_ok).
    - apply IHc.
    - apply fine_bind.
      + unfold area_start. apply fine_bind.
        * destruct position as [pe|]; [|apply fine_ok]. destruct (eval pe (view_of w)); [|apply fine_ok]. apply fine_bind; [apply seek_fine|intros; apply fine_ok].
        * intros [[a1 w1] ok]. destruct (negb ok); [apply fine_ok|]. destruct (eval size (view_of w1)); [|apply fine_ok]. destruct (_ <? _); [apply fine_ok|].
          destruct fill as [fe|]; [|apply fine_ok]. destruct (eval fe (view_of w1)); apply fine_ok.
      + intros [[s w1] ok]. destruct (negb ok); [apply fine_ok|]. apply fine_bind; [apply IHc|]. intros [[a2 w2] b2]. apply fine_bind; [|intros [[s3 w3] b3]; apply fine_ok].
        unfold area_finish. apply fine_bind; [destruct (_ || _); [apply advance_fine|apply fine_ok]|]. intros w4. destruct (file_id w4). apply fine_ok.
    - destruct (passes <? 1).
      + apply fine_bind; [apply IHc|]. intros [[a2 w2] b2]. apply fine_bind; [apply seek_fine|intros; apply fine_ok].
      + destruct (range_of minr w); [|apply fine_ok]. destruct (range_of maxr w); [|apply fine_ok]. destruct (file_id w) as [w1 id].
        match goal with |- context [allocate ?a1 ?a2 ?a3 ?a4 ?a5 ?a6] => destruct (allocate a1 a2 a3 a4 a5 a6) as [al pos0] end. cbn [fst snd].
        destruct pos0; [|apply fine_ok]. apply fine_bind; [destruct (in_int64 _); [apply seek_fine|apply fine_ub]|]. intros w2.
        apply fine_bind; [apply IHc|]. intros [[a3 w3] b3]. apply fine_bind; [apply seek_fine|intros; apply fine_ok].
    - unfold instr_validate. destruct (i (view_of w) (w_delay w)) as [r d]. cbn [fst snd]. destruct r; (apply fine_bind; [apply advance_fine|intros; apply fine_ok]).
    - unfold load_validate. destruct (eval value (view_of w)); [|apply fine_ok]. apply fine_bind; [apply advance_fine|]. intros w1. destruct (short _); apply fine_ok.
    - unfold pool_validate. destruct (file_id w) as [w1 id]. match goal with |- context [pool_loop ?a1 ?a2 ?a3 ?a4 ?a5] => destruct (pool_loop a1 a2 a3 a4 a5) as [values w2] end.
      apply fine_bind; [apply advance_fine|intros; apply fine_ok].
    - apply fine_bind; [apply IHc|]. intros [[a1 w1] b1]. apply fine_bind; [|intros [[a2 w2] b2]; apply fine_ok]. unfold object_validate.
      destruct (o (w_labels w1) (get_virtual (w_fm w1))) as [r|]; [|apply fine_ub]. destruct (set_values (w_labels w1) (ob_symbols r)) as [L1 moved].
      destruct (set_values L1 (ob_sections r)) as [L2 b2]. apply fine_bind; [apply advance_fine|intros; apply fine_ok].
  Qed.

  Lemma w_write_fine w l : fine (w_write w l).
  Proof. unfold w_write. apply fine_bind; [apply write_fine|intros; apply fine_ok]. Qed.
  Lemma fill_fine fuel : forall block byte n w, 0 < block -> n < Z.of_nat fuel -> (0 < fuel)%nat -> fine (fill_loop fuel block byte n w).
  Proof.
    induction fuel as [|fuel IH]; intros block byte n w Hb Hn Hf; [lia|]. cbn [fill_loop]. destruct (Z.ltb_spec block n); [|apply w_write_fine].
    apply fine_bind; [apply w_write_fine|]. intros w1. apply IH; lia.
  Qed.
  Lemma area_fine fuel : forall byte n w, n < Z.of_nat fuel -> (0 < fuel)%nat -> fine (area_loop fuel byte n w).
  Proof.
    induction fuel as [|fuel IH]; intros byte n w Hn Hf; [lia|]. cbn [area_loop]. destruct (Z.ltb_spec 0 n); [|apply fine_ok].
    apply fine_bind; [apply w_write_fine|]. intros w1. apply IH; lia.
  Qed.
  Lemma write_unit_fine m u : fine (write_unit writable own_big m u).
  Proof.
    unfold write_unit. apply fine_bind; [|intros; apply fine_ok]. destruct u as [n v]. cbn [fst snd]. do 5 (destruct n as [|n]; [apply write_fine|]). apply write_fine.
  Qed.
  Lemma units_fine w l : fine (w_units writable own_big w l).
  Proof.
    unfold w_units. apply fine_bind; [|intros; apply fine_ok]. generalize (w_fm w). clear w. induction l as [|u l IH]; intros m; cbn [write_all]; [apply fine_ok|].
    apply fine_bind; [apply write_unit_fine|]. apply IH.
  Qed.
  Lemma encode_fine c : forall a w, fine (encode writable own_big c a w).
  Proof.
    induction c; intros x w; cbn [encode ann] in *; try apply fine_ok.
    - apply fine_bind; [apply IHc1|]. intros; apply IHc2.
    - apply IHc.
    - destruct physical; [apply seek_physical_fine|apply seek_fine].
    - unfold align_encode. destruct (Z.ltb_spec (al_size x) 0); [apply fine_ub|]. apply fill_fine; lia.
    - apply advance_fine.
    - apply fine_bind; [apply header_fine|intros; apply fine_ok].
    - unfold incbin_encode. destruct (snd x =? 0); [apply fine_ok|]. destruct (_ || _); [apply fine_ub|apply w_write_fine].
    - apply units_fine.
    - match goal with |- fine (if ?t then _ else _) => destruct t end; [apply IHc1|apply IHc2].
    - apply IHc.
    - apply fine_bind; [destruct (is_some position); [apply seek_fine|apply fine_ok]|]. intros w1. apply fine_bind; [apply IHc|]. intros w2. unfold area_encode.
      destruct (negb _); [apply fine_ub|]. destruct (is_some fill).
      + apply fine_bind; [destruct (_ =? _); [apply fine_ok|apply advance_fine]|]. intros w3. match goal with |- fine (if ?t <? 0 then _ else _) => destruct (Z.ltb_spec t 0) end; [apply fine_ub|].
        apply area_fine; lia.
      + destruct shared; [apply advance_fine|apply fine_ok].
    - apply fine_bind; [apply seek_fine|]. intros w1. apply fine_bind; [apply IHc|]. intros w2. apply seek_fine.
    - apply units_fine.
    - unfold load_encode. destruct (ld_short x); apply units_fine.
    - apply units_fine.
    - apply fine_bind; [apply IHc|]. intros w1. apply w_write_fine.
  Qed.

  Lemma loop_fine fuel : forall passes c a w, 100 - passes < Z.of_nat fuel -> 0 <= passes <= 100 -> fine (pass_loop writable fuel passes c a w).
  Proof.
    intros passes c a w Hf Hp H. destruct (loop_fuel _ _ _ _ _ _ Hf Hp H) as (p & a' & w' & _ & V). exact (validate_fine p c false a' w' V).
  Qed.
  Lemma run_fine c w : fine (run writable own_big c w).
  Proof.
    unfold run. apply fine_bind; [|intros [ok w1]; apply fine_ok]. destruct (f_printed (w_fm w)); [apply fine_ok|]. unfold encode_assembly.
    apply fine_bind; [apply loop_fine; cbn; lia|]. intros [a w1]. destruct (has_error w1); [apply fine_ok|]. apply fine_bind; [apply encode_fine|intros; apply fine_ok].
  Qed.
End Total.

(** ** The number of passes *)

Lemma loop_rounds writable c a0 w0 fuel : forall n a w a' w', rounds writable c a0 w0 n a w true -> (n <= 100)%nat ->
  pass_loop writable fuel (Z.of_nat n) c a w = ROk (a', w') ->
  exists m a1 w1 again, rounds writable c a0 w0 m a1 w1 again /\ a' = a1 /\ (m <= 100)%nat /\
    (again = false /\ w' = w1 \/ again = true /\ m = 100%nat /\ w' = w_queue (clear_queued w1)).
Proof.
  induction fuel as [|fuel IH]; intros n a w a' w' R N H; cbn [pass_loop] in H; [discriminate|]. destruct (Z.leb_spec 100 (Z.of_nat n)) as [P|P].
  - apply rok in H. apply duo in H. destruct H as [<- <-]. exists n, a, w, true. split; [exact R|]. split; [reflexivity|]. split; [exact N|]. right. split; [reflexivity|]. split; [lia|reflexivity].
  - unbind H r E. destruct r as [[a1 w1] again]. pose proof (rounds_more _ _ _ _ _ _ _ _ _ _ R E) as R'. destruct again.
    + apply (IH (S n) a1 (revalidate w1) a' w' R'); [lia|]. replace (Z.of_nat (S n)) with (Z.of_nat n + 1) by lia. exact H.
    + apply rok in H. apply duo in H. destruct H as [<- <-]. exists (S n), a1, (revalidate w1), false. split; [exact R'|]. split; [reflexivity|]. split; [lia|]. auto.
Qed.

(** Passes leave the disk and the streams alone. *)
Lemma rounds_keep files writable c a w n a' w' again : good files w -> rounds writable c a w n a' w' again ->
  good files w' /\ f_disk (w_fm w') = f_disk (w_fm w).
Proof.
  intros G R. induction R as [|n a1 w1 a2 w2 again R [G1 D1] V]; [auto|].
  pose proof (validate_keep files _ _ _ _ _ _ _ _ _ V (start_good _ _ G1)) as (G2 & D2 & _). destruct (revalidate_good _ _ G2) as [G3 D3].
  split; [exact G3|]. rewrite D3, D2. exact D1.
Qed.

Lemma rounds_fun writable c a w n a1 w1 b1 : rounds writable c a w n a1 w1 b1 -> forall a2 w2 b2, rounds writable c a w n a2 w2 b2 -> a1 = a2 /\ w1 = w2 /\ b1 = b2.
Proof.
  intros R. induction R as [|n x1 y1 x2 y2 again R IH V]; intros a2 w2 b2 R2; inversion R2; subst; [auto|].
  destruct (IH _ _ _ H0) as (-> & -> & _). rewrite V in H1. split3 H1. subst. auto.
Qed.
Lemma close_quiet m : quiet m -> quiet (close_file m).
Proof. unfold close_file. destruct (active m) as [[i g]|]; [|auto]. intros Q. apply (quiet_put m i (stream_close g) Q). reflexivity. Qed.

Lemma run_cases files writable own_big c w ok w' : fresh files c w -> run writable own_big c w = ROk (ok, w') -> f_printed (w_fm w) = false ->
  exists n a1 w1 again, rounds writable c (init c) (with_pool w [] (w_slots w)) n a1 w1 again /\ (n <= 100)%nat /\ (again = true -> n = 100%nat) /\
    (again = true \/ has_error w1 = true -> ok = false /\ f_disk (w_fm w') = f_disk (w_fm w) /\ quiet (w_fm w')).
Proof.
  intros Fr H Hp. unfold run in H. unbind H r E. destruct r as [ok1 w2]. rewrite Hp in E. unfold encode_assembly in E. unbind E r E1. destruct r as [a w1].
  pose proof (fresh_good files c w Fr) as G.
  destruct (loop_rounds writable c (init c) (with_pool w [] (w_slots w)) 101 0 (init c) _ a w1 (rounds_none _ _ _ _) ltac:(lia) E1) as (m & a1 & w3 & again & R & -> & M & K).
  exists m, a1, w3, again. split; [exact R|]. split; [exact M|]. split; [intros ->; destruct K as [[K _]|(_ & K & _)]; [discriminate|exact K]|].
  intros Q. destruct (rounds_keep _ _ _ _ _ _ _ _ _ G R) as [[_ G3] D3].
  assert (X : has_error w1 = true /\ quiet (w_fm w1) /\ f_disk (w_fm w1) = f_disk (w_fm w)).
  { destruct K as [[-> ->]|(-> & _ & ->)]; [|split; [reflexivity|split; [exact G3|exact D3] ] ]. destruct Q as [Q|Q]; [discriminate|]. split; [exact Q|split; [exact G3|exact D3] ]. }
  destruct X as (X1 & X2 & X3). rewrite X1 in E. apply rok in E. apply duo in E. destruct E as [<- <-]. apply rok in H. apply duo in H. destruct H as [<- <-].
  split; [reflexivity|]. destruct (is_some (active (w_fm w1))); [|auto]. split; [cbn [with_fm w_fm]; rewrite close_disk; exact X3|apply close_quiet; exact X2].
Qed.

Lemma run_parse_error writable own_big c w ok w' : run writable own_big c w = ROk (ok, w') -> f_printed (w_fm w) = true -> quiet (w_fm w) ->
  ok = false /\ f_disk (w_fm w') = f_disk (w_fm w) /\ quiet (w_fm w').
Proof.
  unfold run. intros H Hp Q. rewrite Hp in H. cbn [rbind] in H. apply rok in H. apply duo in H. destruct H as [<- <-]. split; [reflexivity|].
  destruct (is_some (active (w_fm w))); [|auto]. split; [cbn [with_fm w_fm]; apply close_disk|apply close_quiet; exact Q].
Qed.

(** ** Alignment *)

Lemma gap_least n x k : 0 <= x -> 0 <= k -> n = 2 ^ k -> least_multiple n x (x + gap n x).
Proof.
  intros Hx Hk Hn. assert (P : 0 < n) by (subst; apply Z.pow_pos_nonneg; lia). unfold gap. rewrite Z.rem_mod_nonneg by lia.
  pose proof (Z.div_mod x n ltac:(lia)) as D. pose proof (Z.mod_pos_bound x n P) as M. clear Hn. set (q := x / n) in *. set (r := x mod n) in *. clearbody q r.
  unfold least_multiple. destruct (Z.eqb_spec r 0) as [R|R].
  - split; [lia|]. split; [exists q; lia|]. intros; lia.
  - split; [lia|]. split; [exists (q + 1); lia|]. intros t Ht. assert (q < t) by nia. nia.
Qed.
