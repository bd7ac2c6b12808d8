Require Import ZArith List Lia Bool ZifyBool.
From Verif Require Import Ints IntsLemmas Res BytesModel BytesSpec BytesIface.
Import ListNotations.

(** ** Lists *)

Lemma skipn_skipn {A} x : forall y (l : list A), skipn x (skipn y l) = skipn (x + y) l.
Proof.
  intros y. induction y as [|y IH]; intros l; [rewrite Nat.add_0_r; reflexivity|].
  rewrite Nat.add_succ_r. destruct l; [rewrite !skipn_nil; reflexivity|]. apply IH.
Qed.

Lemma agrees_length c s : agrees c s -> length c = length s.
Proof. induction 1; cbn; congruence. Qed.
Lemma agrees_refl s : agrees s s.
Proof. induction s; constructor; auto. Qed.
Lemma agrees_app a b c d : agrees a c -> agrees b d -> agrees (a ++ b) (c ++ d).
Proof. apply Forall2_app. Qed.
Lemma agrees_firstn n : forall c s, agrees c s -> agrees (firstn n c) (firstn n s).
Proof. induction n; intros c s H; [constructor|]. inversion H; subst; cbn [firstn]; constructor; auto. apply IHn; assumption. Qed.
Lemma agrees_skipn n : forall c s, agrees c s -> agrees (skipn n c) (skipn n s).
Proof. induction n; intros c s H; [exact H|]. inversion H; subst; cbn [skipn]; [constructor|]. apply IHn; assumption. Qed.
Lemma agrees_none l n : length l = n -> agrees l (repeat None n).
Proof. intros <-. induction l; cbn; constructor; auto. Qed.
Lemma agrees_overwrite c s p x : agrees c s -> agrees (overwrite c p x) (overwrite s p x).
Proof.
  intros H. unfold overwrite. apply agrees_app; [apply agrees_firstn, H|].
  apply agrees_app; [apply agrees_refl|apply agrees_skipn, H].
Qed.

Lemma overwrite_length {A} (l : list A) p x : p + length x <= length l -> length (overwrite l p x) = length l.
Proof. intros H. unfold overwrite. rewrite !app_length, firstn_length, skipn_length. lia. Qed.
Lemma overwrite_nil {A} (l : list A) p : overwrite l p [] = l.
Proof. unfold overwrite. cbn [app length]. rewrite Nat.add_0_r. apply firstn_skipn. Qed.
Lemma overwrite_cons {A} (l : list A) p x r : p + S (length r) <= length l ->
  overwrite (overwrite l p [x]) (S p) r = overwrite l p (x :: r).
Proof.
  intros H. unfold overwrite. cbn [length app].
  assert (E : firstn (S p) (firstn p l ++ x :: skipn (p + 1) l) = firstn p l ++ [x]).
  { rewrite firstn_app, firstn_length, firstn_firstn.
    replace (Nat.min (S p) p) with p by lia. replace (S p - Nat.min p (length l)) with 1 by lia. reflexivity. }
  rewrite E, <- app_assoc. cbn [app]. do 3 f_equal.
  rewrite skipn_app, firstn_length, skipn_all2 by (rewrite firstn_length; lia). cbn [app].
  replace (S p + length r - Nat.min p (length l)) with (S (length r)) by lia. cbn [skipn].
  rewrite skipn_skipn. f_equal. lia.
Qed.

Lemma store_overwrite : forall l cells pos, pos + length l <= length cells ->
  store cells pos l = ROk (overwrite cells pos l).
Proof.
  induction l as [|x r IH]; intros cells pos H; cbn [store].
  - rewrite overwrite_nil. reflexivity.
  - cbn [length] in H. replace (pos <? length cells) with true by lia.
    change (firstn pos cells ++ x :: skipn (S pos) cells) with (firstn pos cells ++ [x] ++ skipn (S pos) cells).
    replace (S pos) with (pos + length [x]) at 1 by (cbn; lia).
    fold (overwrite cells pos [x]). rewrite IH.
    + rewrite overwrite_cons by exact H. reflexivity.
    + rewrite overwrite_length; cbn [length]; lia.
Qed.

Lemma firstn_overwrite_end {A} (l x : list A) n : n + length x <= length l ->
  firstn (n + length x) (overwrite l n x) = firstn n l ++ x.
Proof.
  intros H. unfold overwrite. rewrite app_assoc, firstn_app.
  assert (E : length (firstn n l ++ x) = n + length x) by (rewrite app_length, firstn_length; lia).
  rewrite E, Nat.sub_diag, firstn_O, app_nil_r. rewrite <- E. apply firstn_all.
Qed.
Lemma firstn_overwrite_in {A} (l x : list A) n p : p + length x <= n -> n <= length l ->
  firstn n (overwrite l p x) = overwrite (firstn n l) p x.
Proof.
  intros H Hn. unfold overwrite.
  rewrite firstn_app, firstn_length. replace (Nat.min p (length l)) with p by lia.
  rewrite firstn_firstn. replace (Nat.min n p) with p by lia.
  rewrite firstn_firstn. replace (Nat.min p n) with p by lia. f_equal.
  rewrite firstn_app. rewrite (firstn_all2 x) by lia. f_equal.
  rewrite skipn_firstn_comm. f_equal. lia.
Qed.

(** ** Buffers *)

Definition wf (b : buffer) : Prop := b_size b <= length (b_cells b).

Lemma contents_length b : wf b -> length (contents b) = b_size b.
Proof. unfold wf, contents. intros H. rewrite firstn_length. lia. Qed.

Lemma round512_le n : n <= round512 n.
Proof.
  unfold round512. pose proof (Nat.div_mod (n + 511) 512 ltac:(lia)).
  pose proof (Nat.mod_upper_bound (n + 511) 512 ltac:(lia)). lia.
Qed.
Lemma grow_facts b n : wf b ->
  b_size (grow b n) = b_size b /\ n <= length (b_cells (grow b n)) /\ wf (grow b n) /\
  (exists extra, b_cells (grow b n) = b_cells b ++ extra).
Proof.
  intros Hw. unfold grow. destruct (n <? length (b_cells b)) eqn:E.
  - repeat split; try lia; [exact Hw|]. exists []. rewrite app_nil_r. reflexivity.
  - pose proof (round512_le n). cbn [b_size b_cells]. unfold wf in *. cbn [b_size b_cells].
    rewrite app_length, firstn_length, repeat_length.
    split; [reflexivity|]. split; [lia|]. split; [lia|].
    eexists. rewrite firstn_all2 by lia. reflexivity.
Qed.

(** Appending initialised or copied cells. *)
Lemma append_cells b l : wf b ->
  exists b', append b l = ROk b' /\ wf b' /\ contents b' = contents b ++ l.
Proof.
  intros Hw. unfold append. destruct (grow_facts b (b_size b + length l) Hw) as (Hs & Hn & Hw' & extra & Hc).
  rewrite store_overwrite by lia. cbn [rbind]. eexists. split; [reflexivity|].
  unfold wf, contents. cbn [b_size b_cells]. rewrite Hs. split.
  - rewrite overwrite_length; lia.
  - rewrite firstn_overwrite_end by lia. f_equal. rewrite Hc, firstn_app.
    unfold wf in Hw. replace (b_size b - length (b_cells b)) with 0 by lia.
    rewrite firstn_O, app_nil_r. reflexivity.
Qed.

Lemma replace_cells b pos l : wf b -> pos + length l <= b_size b ->
  store (b_cells b) pos l = ROk (overwrite (b_cells b) pos l) /\
  wf (mkBuffer (overwrite (b_cells b) pos l) (b_size b)) /\
  contents (mkBuffer (overwrite (b_cells b) pos l) (b_size b)) = overwrite (contents b) pos l.
Proof.
  intros Hw Hp. unfold wf, contents in *. cbn [b_size b_cells].
  split; [apply store_overwrite; lia|]. split.
  - rewrite overwrite_length; lia.
  - apply firstn_overwrite_in; lia.
Qed.

Lemma replace_bytes_cells l : forall b pos, wf b -> pos + length l <= b_size b ->
  exists b', replace_bytes b pos l = ROk b' /\ wf b' /\ contents b' = overwrite (contents b) pos (map Some l).
Proof.
  induction l as [|v l IH]; intros b pos Hw Hp; cbn [replace_bytes map length] in *.
  - exists b. rewrite overwrite_nil. auto.
  - unfold replace_byte.
    destruct (replace_cells b pos [Some v] Hw ltac:(cbn; lia)) as (Hst & Hwf & Hc).
    rewrite Hst. cbn [rbind].
    destruct (IH _ (S pos) Hwf ltac:(cbn [b_size]; lia)) as (b' & Hr & Hw' & Hc').
    exists b'. split; [exact Hr|]. split; [exact Hw'|]. rewrite Hc', Hc.
    apply overwrite_cons. rewrite contents_length, map_length by exact Hw. lia.
Qed.

Lemma align_cells alignment : alignment <> 0 -> forall fuel b, wf b ->
  (alignment - b_size b mod alignment) mod alignment <= fuel ->
  exists b', align_loop fuel b alignment = ROk b' /\ wf b' /\
    contents b' = contents b ++ repeat (Some 0%Z) ((alignment - b_size b mod alignment) mod alignment).
Proof.
  intros Ha. induction fuel as [|fuel IH]; intros b Hw Hf; cbn [align_loop].
  - pose proof (Nat.mod_upper_bound (b_size b) alignment Ha).
    destruct (b_size b mod alignment =? 0) eqn:E.
    + exists b. split; [reflexivity|]. split; [exact Hw|].
      replace ((alignment - b_size b mod alignment) mod alignment) with 0 by lia.
      cbn. rewrite app_nil_r. reflexivity.
    + rewrite Nat.mod_small in Hf by lia. lia.
  - pose proof (Nat.mod_upper_bound (b_size b) alignment Ha).
    destruct (b_size b mod alignment =? 0) eqn:E.
    + exists b. split; [reflexivity|]. split; [exact Hw|].
      replace (b_size b mod alignment) with 0 by lia. rewrite Nat.sub_0_r, Nat.mod_same by exact Ha.
      cbn. rewrite app_nil_r. reflexivity.
    + destruct (append_cells b [Some 0%Z] Hw) as (b1 & Hb1 & Hw1 & Hc1). rewrite Hb1. cbn [rbind].
      assert (Hsz : b_size b1 = S (b_size b)).
      { rewrite <- (contents_length b1 Hw1), Hc1, app_length, (contents_length b Hw). cbn. lia. }
      assert (Hk : (alignment - b_size b mod alignment) mod alignment =
                   S ((alignment - b_size b1 mod alignment) mod alignment)).
      { rewrite Hsz. rewrite (Nat.mod_small (alignment - b_size b mod alignment)) by lia.
        assert (Hm : S (b_size b) mod alignment =
                     if S (b_size b mod alignment) =? alignment then 0 else S (b_size b mod alignment)).
        { pose proof (Nat.div_mod (b_size b) alignment Ha) as Hd.
          destruct (S (b_size b mod alignment) =? alignment) eqn:E2.
          - symmetry. apply Nat.mod_unique with (S (b_size b / alignment)); [lia|].
            apply Nat.eqb_eq in E2. rewrite Nat.mul_succ_r. lia.
          - symmetry. apply Nat.mod_unique with (b_size b / alignment); lia. }
        rewrite Hm. destruct (S (b_size b mod alignment) =? alignment) eqn:E2.
        - rewrite Nat.sub_0_r, Nat.mod_same by exact Ha. lia.
        - rewrite (Nat.mod_small (alignment - S (b_size b mod alignment))) by lia. lia. }
      destruct (IH b1 Hw1 ltac:(lia)) as (b' & Hr & Hw' & Hc').
      exists b'. split; [exact Hr|]. split; [exact Hw'|].
      rewrite Hc', Hc1, Hk, <- app_assoc. reflexivity.
Qed.

Lemma mid_cells b start n : wf b -> start + n <= b_size b ->
  exists b', mid b start (Z.of_nat n) = ROk b' /\ wf b' /\ contents b' = firstn n (skipn start (contents b)).
Proof.
  intros Hw Hn. unfold mid. replace (Z.of_nat n <? 0)%Z with false by lia. rewrite Nat2Z.id.
  destruct (b_size b <=? start) eqn:E.
  - exists empty_buffer. split; [reflexivity|]. split; [unfold wf; cbn; lia|].
    replace n with 0 by lia. reflexivity.
  - unfold load. unfold wf in Hw. replace (start + n <=? length (b_cells b)) with true by lia. cbn [rbind].
    destruct (grow_facts empty_buffer n ltac:(unfold wf; cbn; lia)) as (_ & Hg & _).
    assert (Hl : length (firstn n (skipn start (b_cells b))) = n) by (rewrite firstn_length, skipn_length; lia).
    rewrite store_overwrite by lia. cbn [rbind]. eexists. split; [reflexivity|].
    unfold wf, contents. cbn [b_size b_cells]. split; [rewrite overwrite_length; lia|].
    rewrite <- Hl at 1. change (length (firstn n (skipn start (b_cells b)))) with (0 + length (firstn n (skipn start (b_cells b)))).
    rewrite firstn_overwrite_end by (rewrite Hl; lia). cbn [firstn app].
    rewrite skipn_firstn_comm, firstn_firstn. f_equal. lia.
Qed.

Lemma to_bytes2 w big : map Some (encode_bytes big 2 w) =
  (if big then [Some (byte_of w 8); Some (byte_of w 0)] else [Some (byte_of w 0); Some (byte_of w 8)]).
Proof.
  unfold encode_bytes, byte_of. rewrite !land_255, !Z.shiftr_div_pow2 by lia.
  change (2 ^ 8)%Z with 256%Z. change (2 ^ 0)%Z with 1%Z. rewrite !Z.div_1_r.
  destruct big; reflexivity.
Qed.
Lemma to_bytes4 w big : map Some (encode_bytes big 4 w) =
  (if big then [Some (byte_of w 24); Some (byte_of w 16); Some (byte_of w 8); Some (byte_of w 0)]
       else [Some (byte_of w 0); Some (byte_of w 8); Some (byte_of w 16); Some (byte_of w 24)]).
Proof.
  unfold encode_bytes, byte_of. rewrite !land_255, !Z.shiftr_div_pow2 by lia.
  cbn [le_bytes]. rewrite !Z.div_div by lia.
  change (2 ^ 8)%Z with 256%Z. change (2 ^ 0)%Z with 1%Z. change (2 ^ 16)%Z with (256 * 256)%Z.
  change (2 ^ 24)%Z with (256 * (256 * 256))%Z. rewrite !Z.div_1_r.
  destruct big; reflexivity.
Qed.
Lemma encode_bytes_length big n w : length (encode_bytes big n w) = n.
Proof.
  assert (H : forall v, length (le_bytes n v) = n) by (induction n; intros v; cbn; [reflexivity|f_equal; apply IHn]).
  unfold encode_bytes. destruct big; [rewrite rev_length|]; apply H.
Qed.

Lemma perform_ok o b s : wf b -> agrees (contents b) s -> allowed o s ->
  exists b', perform o b = ROk b' /\ wf b' /\ agrees (contents b') (spec o s).
Proof.
  intros Hw Hs Ho. pose proof (agrees_length _ _ Hs) as Hlen. rewrite contents_length in Hlen by exact Hw.
  destruct o; cbn [perform spec allowed] in *.
  - destruct (append_cells b (map Some l) Hw) as (b' & Hb & Hw' & Hc). exists b'. rewrite Hc.
    split; [exact Hb|]. split; [exact Hw'|]. apply agrees_app; [exact Hs|apply agrees_refl].
  - destruct (append_cells b (contents b) Hw) as (b' & Hb & Hw' & Hc). exists b'. rewrite Hc.
    split; [exact Hb|]. split; [exact Hw'|]. apply agrees_app; exact Hs.
  - destruct (append_cells b (repeat (Some v) n) Hw) as (b' & Hb & Hw' & Hc). exists b'.
    unfold append in Hb. rewrite repeat_length in Hb. split; [exact Hb|]. split; [exact Hw'|].
    rewrite Hc. apply agrees_app; [exact Hs|apply agrees_refl].
  - unfold align_size. destruct (n =? 0) eqn:E.
    + replace n with 0 by lia. exists b. auto.
    + assert (Hn : n <> 0) by lia.
      destruct (align_cells n Hn n b Hw) as (b' & Hb & Hw' & Hc).
      { pose proof (Nat.mod_upper_bound (n - b_size b mod n) n Hn). lia. }
      exists b'. split; [exact Hb|]. split; [exact Hw'|]. rewrite Hc, Hlen.
      destruct n; [lia|]. apply agrees_app; [exact Hs|apply agrees_refl].
  - eexists. split; [reflexivity|].
    destruct (grow_facts b n Hw) as (Hz & Hg & Hw' & extra & Hc). unfold resize, wf, contents.
    cbn [b_size b_cells]. split; [exact Hg|]. rewrite Hc.
    destruct (Nat.le_gt_cases n (b_size b)) as [Hle|Hgt].
    + replace (n - length s) with 0 by lia. cbn [repeat]. rewrite app_nil_r.
      rewrite firstn_app. unfold wf in Hw. replace (n - length (b_cells b)) with 0 by lia.
      rewrite firstn_O, app_nil_r. apply (agrees_firstn n) in Hs. unfold contents in Hs.
      rewrite firstn_firstn in Hs. replace (Nat.min n (b_size b)) with n in Hs by lia. exact Hs.
    + rewrite (firstn_all2 s) by lia.
      rewrite <- (firstn_skipn (b_size b) (firstn n (b_cells b ++ extra))). apply agrees_app.
      * rewrite firstn_firstn. replace (Nat.min (b_size b) n) with (b_size b) by lia.
        rewrite firstn_app. unfold wf in Hw. replace (b_size b - length (b_cells b)) with 0 by lia.
        rewrite firstn_O, app_nil_r. exact Hs.
      * apply agrees_none. rewrite skipn_length, firstn_length, <- Hc. lia.
  - eexists. split; [reflexivity|]. unfold clear, wf, contents. cbn. split; [lia|constructor].
  - rewrite <- Hlen in Ho. destruct (replace_bytes_cells l b pos Hw Ho) as (b' & Hb & Hw' & Hc).
    exists b'. split; [exact Hb|]. split; [exact Hw'|]. rewrite Hc. apply agrees_overwrite, Hs.
  - unfold replace_word. rewrite <- Hlen. destruct (b_size b <=? pos + 1) eqn:E.
    + replace (pos + 2 <=? b_size b) with false by lia. exists b. auto.
    + replace (pos + 2 <=? b_size b) with true by lia. rewrite <- to_bytes2.
      destruct (replace_cells b pos (map Some (encode_bytes big 2 w)) Hw) as (Hst & Hw' & Hc).
      { rewrite map_length, encode_bytes_length. lia. }
      rewrite Hst. cbn [rbind]. eexists. split; [reflexivity|]. split; [exact Hw'|].
      rewrite Hc. apply agrees_overwrite, Hs.
  - unfold replace_dword. rewrite <- Hlen. destruct (b_size b <=? pos + 3) eqn:E.
    + replace (pos + 4 <=? b_size b) with false by lia. exists b. auto.
    + replace (pos + 4 <=? b_size b) with true by lia. rewrite <- to_bytes4.
      destruct (replace_cells b pos (map Some (encode_bytes big 4 w)) Hw) as (Hst & Hw' & Hc).
      { rewrite map_length, encode_bytes_length. lia. }
      rewrite Hst. cbn [rbind]. eexists. split; [reflexivity|]. split; [exact Hw'|].
      rewrite Hc. apply agrees_overwrite, Hs.
  - rewrite <- Hlen in Ho. destruct (mid_cells b start n Hw Ho) as (b' & Hb & Hw' & Hc).
    exists b'. split; [exact Hb|]. split; [exact Hw'|]. rewrite Hc. apply agrees_firstn, agrees_skipn, Hs.
  - rewrite <- Hlen in Ho.
    destruct (mid_cells b start (b_size b - start) Hw ltac:(lia)) as (b' & Hb & Hw' & Hc).
    exists b'. split; [|split; [exact Hw'|]].
    + rewrite <- Hb. unfold mid. replace (-1 <? 0)%Z with true by lia.
      replace (Z.of_nat (b_size b - start) <? 0)%Z with false by lia. rewrite Nat2Z.id. reflexivity.
    + rewrite Hc, firstn_all2 by (rewrite skipn_length, contents_length by exact Hw; lia).
      apply agrees_skipn, Hs.
  - unfold left. rewrite <- Hlen in Ho. destruct (mid_cells b 0 n Hw Ho) as (b' & Hb & Hw' & Hc).
    exists b'. split; [exact Hb|]. split; [exact Hw'|]. rewrite Hc. apply agrees_firstn, Hs.
  - unfold right. rewrite <- Hlen in Ho. replace (b_size b <? n) with false by lia.
    destruct (mid_cells b (b_size b - n) n Hw ltac:(lia)) as (b' & Hb & Hw' & Hc).
    exists b'. split; [exact Hb|]. split; [exact Hw'|]. rewrite Hc, <- Hlen.
    rewrite firstn_all2 by (rewrite skipn_length, contents_length by exact Hw; lia).
    apply agrees_skipn, Hs.
Qed.

Lemma reached_agrees b s : reached b s -> wf b /\ agrees (contents b) s.
Proof.
  induction 1 as [|b s o b' _ [Hw Hs] Ho Hp].
  - split; [unfold wf; cbn; lia|constructor].
  - destruct (perform_ok o b s Hw Hs Ho) as (b2 & H2 & Hw2 & Hs2). rewrite Hp in H2. injection H2 as <-. auto.
Qed.

Lemma never_undefined b s o : reached b s -> allowed o s -> exists b', perform o b = ROk b'.
Proof.
  intros H Ho. destruct (reached_agrees b s H) as [Hw Hs].
  destruct (perform_ok o b s Hw Hs Ho) as (b2 & H2 & _). eauto.
Qed.

(** ** Words *)

Lemma agrees_nth c s i v : agrees c s -> nth_error s i = Some (Some v) -> nth_error c i = Some (Some v).
Proof.
  intros H. revert i. induction H as [|x y c s Hxy H IH]; intros [|i] Hi; cbn in *; try discriminate.
  - injection Hi as ->. destruct Hxy; congruence.
  - auto.
Qed.
Lemma cell_contents b i v : nth_error (contents b) i = Some (Some v) -> cell b i = ROk v.
Proof.
  unfold contents, cell. intros H. 
  assert (Hi : i < b_size b).
  { destruct (Nat.lt_ge_cases i (b_size b)); [assumption|].
    rewrite (proj2 (nth_error_None _ i)) in H; [discriminate|]. rewrite firstn_length. lia. }
  replace (nth_error (b_cells b) i) with (Some (Some v)); [reflexivity|]. rewrite <- H. clear H.
  revert i Hi. generalize (b_size b) as n, (b_cells b) as l.
  induction n; intros l i Hi; [lia|]. destruct l, i; cbn; try reflexivity. apply IHn. lia.
Qed.

Lemma word_value d0 d1 : is_byte d0 -> is_byte d1 -> Z.lor d0 (Z.shiftl d1 8) = number [d0; d1].
Proof.
  unfold is_byte. intros H0 H1. cbn [number]. rewrite Z.shiftl_mul_pow2, (lor_small_mul_pow2 d1 d0 8) by (cbn; lia).
  change (2 ^ 8)%Z with 256%Z. lia.
Qed.
Lemma dword_value d0 d1 d2 d3 : is_byte d0 -> is_byte d1 -> is_byte d2 -> is_byte d3 ->
  Z.lor (Z.lor (Z.lor d0 (Z.shiftl d1 8)) (Z.shiftl d2 16)) (Z.shiftl d3 24) = number [d0; d1; d2; d3].
Proof.
  unfold is_byte. intros H0 H1 H2 H3. cbn [number]. rewrite !Z.shiftl_mul_pow2 by lia.
  rewrite (lor_small_mul_pow2 d1 d0 8) by (cbn; lia).
  rewrite (lor_small_mul_pow2 d2 _ 16) by (change (2 ^ 8)%Z with 256%Z; change (2 ^ 16)%Z with 65536%Z; lia).
  rewrite (lor_small_mul_pow2 d3 _ 24)
    by (change (2 ^ 8)%Z with 256%Z; change (2 ^ 16)%Z with 65536%Z; change (2 ^ 24)%Z with 16777216%Z; lia).
  change (2 ^ 8)%Z with 256%Z; change (2 ^ 16)%Z with 65536%Z; change (2 ^ 24)%Z with 16777216%Z; lia.
Qed.

Lemma get_word_value b s pos big d0 d1 : reached b s ->
  nth_error s pos = Some (Some d0) -> nth_error s (pos + 1) = Some (Some d1) -> is_byte d0 -> is_byte d1 ->
  get_word b pos big = ROk (if big then number [d1; d0] else number [d0; d1]).
Proof.
  intros Hr N0 N1 H0 H1. destruct (reached_agrees b s Hr) as [Hw Hs].
  pose proof (agrees_length _ _ Hs) as Hlen. rewrite contents_length in Hlen by exact Hw.
  assert (Hp : pos + 1 < length s) by (apply nth_error_Some; congruence).
  unfold get_word. replace (b_size b <=? pos + 1) with false by lia.
  rewrite !(cell_contents b _ _ (agrees_nth _ _ _ _ Hs N0)), !(cell_contents b _ _ (agrees_nth _ _ _ _ Hs N1)).
  cbn [rbind]. destruct big; rewrite word_value by assumption; reflexivity.
Qed.
Lemma get_dword_value b s pos big d0 d1 d2 d3 : reached b s ->
  nth_error s pos = Some (Some d0) -> nth_error s (pos + 1) = Some (Some d1) ->
  nth_error s (pos + 2) = Some (Some d2) -> nth_error s (pos + 3) = Some (Some d3) ->
  is_byte d0 -> is_byte d1 -> is_byte d2 -> is_byte d3 ->
  get_dword b pos big = ROk (s32 (if big then number [d3; d2; d1; d0] else number [d0; d1; d2; d3])).
Proof.
  intros Hr N0 N1 N2 N3 H0 H1 H2 H3. destruct (reached_agrees b s Hr) as [Hw Hs].
  pose proof (agrees_length _ _ Hs) as Hlen. rewrite contents_length in Hlen by exact Hw.
  assert (Hp : pos + 3 < length s) by (apply nth_error_Some; congruence).
  unfold get_dword. replace (b_size b <=? pos + 3) with false by lia.
  rewrite (cell_contents b _ _ (agrees_nth _ _ _ _ Hs N0)), (cell_contents b _ _ (agrees_nth _ _ _ _ Hs N1)),
    (cell_contents b _ _ (agrees_nth _ _ _ _ Hs N2)), (cell_contents b _ _ (agrees_nth _ _ _ _ Hs N3)).
  cbn [rbind]. destruct big; rewrite dword_value by assumption; reflexivity.
Qed.

Lemma nth_overwrite {A} (s x : list A) pos i : pos + length x <= length s -> i < length x ->
  nth_error (overwrite s pos x) (pos + i) = nth_error x i.
Proof.
  intros H Hi. unfold overwrite. rewrite nth_error_app2 by (rewrite firstn_length; lia).
  rewrite firstn_length, nth_error_app1 by lia. f_equal. lia.
Qed.
Lemma number_le n v : number (le_bytes n v) = (v mod 256 ^ Z.of_nat n)%Z.
Proof.
  revert v. induction n; intros v.
  - cbn [number le_bytes]. change (256 ^ Z.of_nat 0)%Z with 1%Z. symmetry. apply Z.mod_1_r.
  - cbn [number le_bytes]. rewrite IHn, Nat2Z.inj_succ, Z.pow_succ_r, Z.rem_mul_r by lia. lia.
Qed.

Lemma replaced_word b s pos w big b' : reached b s -> pos + 2 <= length s ->
  perform (ReplaceWord pos w big) b = ROk b' -> get_word b' pos big = ROk (u16 w).
Proof.
  intros Hr Hp Hb. assert (Hr' : reached b' (spec (ReplaceWord pos w big) s)) by (eapply reached_op; try eassumption; exact I).
  cbn [spec] in Hr'. replace (pos + 2 <=? length s) with true in Hr' by lia.
  assert (E : forall i, i < 2 -> nth_error (overwrite s pos (map Some (encode_bytes big 2 w))) (pos + i)
                         = nth_error (map Some (encode_bytes big 2 w)) i).
  { intros i Hi. apply nth_overwrite; rewrite map_length, encode_bytes_length; lia. }
  pose proof (number_le 2 w) as Hn. cbn [le_bytes number] in Hn.
  assert (B : forall x, is_byte (x mod 256)) by (intros x; unfold is_byte; lia).
  unfold u16. change 65536%Z with (256 ^ Z.of_nat 2)%Z. rewrite <- Hn. clear Hn.
  pose proof (E 0 ltac:(lia)) as E0. pose proof (E 1 ltac:(lia)) as E1. rewrite Nat.add_0_r in E0.
  unfold encode_bytes in *. destruct big; cbn [le_bytes rev app map nth_error] in *;
    erewrite get_word_value by (try exact Hr'; try exact E0; try exact E1; apply B); cbn [number]; reflexivity.
Qed.
Lemma replaced_dword b s pos w big b' : reached b s -> pos + 4 <= length s ->
  perform (ReplaceDword pos w big) b = ROk b' -> get_dword b' pos big = ROk (s32 w).
Proof.
  intros Hr Hp Hb. assert (Hr' : reached b' (spec (ReplaceDword pos w big) s)) by (eapply reached_op; try eassumption; exact I).
  cbn [spec] in Hr'. replace (pos + 4 <=? length s) with true in Hr' by lia.
  assert (E : forall i, i < 4 -> nth_error (overwrite s pos (map Some (encode_bytes big 4 w))) (pos + i)
                         = nth_error (map Some (encode_bytes big 4 w)) i).
  { intros i Hi. apply nth_overwrite; rewrite map_length, encode_bytes_length; lia. }
  pose proof (number_le 4 w) as Hn. cbn [le_bytes number] in Hn.
  assert (B : forall x, is_byte (x mod 256)) by (intros x; unfold is_byte; lia).
  replace (s32 w) with (s32 (w mod 256 ^ Z.of_nat 4)) by (change (256 ^ Z.of_nat 4)%Z with 4294967296%Z; unfold s32; rewrite Z.mod_mod by lia; reflexivity).
  rewrite <- Hn. clear Hn.
  pose proof (E 0 ltac:(lia)) as E0. pose proof (E 1 ltac:(lia)) as E1.
  pose proof (E 2 ltac:(lia)) as E2. pose proof (E 3 ltac:(lia)) as E3. rewrite Nat.add_0_r in E0.
  unfold encode_bytes in *. destruct big; cbn [le_bytes rev app map nth_error] in *;
    erewrite get_dword_value by (try exact Hr'; try exact E0; try exact E1; try exact E2; try exact E3; apply B);
    cbn [number]; reflexivity.
Qed.
Lemma word_outside b s pos w big : reached b s -> length s < pos + 2 ->
  get_word b pos big = ROk (-1)%Z /\ perform (ReplaceWord pos w big) b = ROk b.
Proof.
  intros Hr Hp. destruct (reached_agrees b s Hr) as [Hw Hs].
  pose proof (agrees_length _ _ Hs) as Hlen. rewrite contents_length in Hlen by exact Hw.
  cbn [perform]. unfold get_word, replace_word. replace (b_size b <=? pos + 1) with true by lia. auto.
Qed.
Lemma dword_outside b s pos w big : reached b s -> length s < pos + 4 ->
  get_dword b pos big = ROk (-1)%Z /\ perform (ReplaceDword pos w big) b = ROk b.
Proof.
  intros Hr Hp. destruct (reached_agrees b s Hr) as [Hw Hs].
  pose proof (agrees_length _ _ Hs) as Hlen. rewrite contents_length in Hlen by exact Hw.
  cbn [perform]. unfold get_dword, replace_dword. replace (b_size b <=? pos + 3) with true by lia. auto.
Qed.
