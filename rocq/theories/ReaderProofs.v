(** Reading texts. *)

Require Import ZArith List Bool Lia ZifyBool.
From Verif Require Import Ints IntsLemmas Res ReaderModel ReaderSpec.
Import ListNotations.
Local Open Scope Z_scope.

(* ---- bytes of UTF-8 ---- *)

Definition byte_range : list Z := map Z.of_nat (seq 0 256).
Lemma by_bytes (p : Z -> bool) : forallb p byte_range = true -> forall b, 0 <= b < 256 -> p b = true.
Proof.
  intros H b Hb. rewrite forallb_forall in H. apply H. unfold byte_range. rewrite in_map_iff.
  exists (Z.to_nat b). split; [lia|]. apply in_seq. lia.
Qed.

Lemma ascii_byte b : 0 <= b < 128 -> (Z.land b 0xE0 =? 0xC0) = false /\ (Z.land b 0xF0 =? 0xE0) = false.
Proof.
  intros H.
  pose proof (by_bytes (fun b => implb (b <? 128) (negb (Z.land b 0xE0 =? 0xC0) && negb (Z.land b 0xF0 =? 0xE0))) eq_refl b) as P.
  cbv beta in P. lia.
Qed.
Lemma lead2 x : 0 <= x < 32 -> (Z.land (192 + x) 0xE0 =? 0xC0) = true /\ Z.land (192 + x) 0x1F = x.
Proof.
  intros H.
  pose proof (by_bytes (fun x => implb (x <? 32) ((Z.land (192 + x) 0xE0 =? 0xC0) && (Z.land (192 + x) 0x1F =? x))) eq_refl x) as P.
  cbv beta in P. lia.
Qed.
Lemma lead3 x : 0 <= x < 16 ->
  (Z.land (224 + x) 0xE0 =? 0xC0) = false /\ (Z.land (224 + x) 0xF0 =? 0xE0) = true /\ Z.land (224 + x) 0x0F = x.
Proof.
  intros H.
  pose proof (by_bytes (fun x => implb (x <? 16) (negb (Z.land (224 + x) 0xE0 =? 0xC0) && (Z.land (224 + x) 0xF0 =? 0xE0) && (Z.land (224 + x) 0x0F =? x))) eq_refl x) as P.
  cbv beta in P. lia.
Qed.
Lemma cont x : 0 <= x < 64 -> (Z.land (128 + x) 0xC0 =? 0x80) = true /\ Z.land (128 + x) 0x3F = x.
Proof.
  intros H.
  pose proof (by_bytes (fun x => implb (x <? 64) ((Z.land (128 + x) 0xC0 =? 0x80) && (Z.land (128 + x) 0x3F =? x))) eq_refl x) as P.
  cbv beta in P. lia.
Qed.
Lemma join6 a b : 0 <= b < 64 -> Z.lor (Z.shiftl a 6) b = a * 64 + b.
Proof. intros H. rewrite shiftl_mul by lia. apply (lor_mul_pow2_small a b 6); lia. Qed.
Lemma join8 a b : 0 <= b < 256 -> Z.lor b (Z.shiftl a 8) = b + a * 256.
Proof. intros H. rewrite shiftl_mul by lia. apply (lor_small_mul_pow2 a b 8); lia. Qed.

Lemma lor_192 x : 0 <= x < 32 -> Z.lor 0xC0 x = 192 + x.
Proof. intros H. change 0xC0 with (6 * 2 ^ 5). rewrite (lor_mul_pow2_small 6 x 5); lia. Qed.
Lemma lor_224 x : 0 <= x < 16 -> Z.lor 0xE0 x = 224 + x.
Proof. intros H. change 0xE0 with (14 * 2 ^ 4). rewrite (lor_mul_pow2_small 14 x 4); lia. Qed.
Lemma lor_128 x : 0 <= x < 64 -> Z.lor 0x80 x = 128 + x.
Proof. intros H. change 0x80 with (2 * 2 ^ 6). rewrite (lor_mul_pow2_small 2 x 6); lia. Qed.

Lemma utf8_encode_eq c : is_char c -> utf8_encode c = utf8 c.
Proof.
  unfold is_char. intros H. unfold utf8_encode, utf8.
  destruct (c <? 0x80) eqn:E1.
  - change 0x7F with (2 ^ 7 - 1). rewrite land_ones_mod by lia. rewrite Z.mod_small by lia. reflexivity.
  - rewrite !shiftr_div by lia. change (2 ^ 6) with 64. change (2 ^ 12) with 4096.
    rewrite land_31, land_15, !land_63.
    destruct (c <? 0x800) eqn:E2.
    + rewrite lor_192, lor_128 by (apply Z.mod_pos_bound; lia).
      rewrite (Z.mod_small (c / 64)) by (split; [apply Z.div_pos; lia|apply Z.div_lt_upper_bound; lia]). reflexivity.
    + rewrite lor_224, !lor_128 by (apply Z.mod_pos_bound; lia).
      rewrite (Z.mod_small (c / 4096)) by (split; [apply Z.div_pos; lia|apply Z.div_lt_upper_bound; lia]). reflexivity.
Qed.

(* ---- the byte source ---- *)

(** The bytes still to be read. *)
Definition pending (f : tfile) : list Z :=
  if f_memory f then skipn (f_pos f) (f_content f)
  else skipn (f_bufpos f) (f_buf f) ++ (if f_fail f then [] else skipn (f_stream f) (f_content f)).

Record reads (f : tfile) (m : bool) (e : encoding) (er : bool) (rest : list Z) : Prop := mkReads {
  rd_m : f_memory f = m;
  rd_e : f_encoding f = e;
  rd_er : f_error f = er;
  rd_pos : (f_pos f <= List.length (f_content f))%nat;
  rd_rest : skipn (f_pos f) (f_content f) = rest;
  rd_pend : pending f = rest }.

Lemma skipn_cons_inv {A} n (l : list A) x r : skipn n l = x :: r ->
  (n < List.length l)%nat /\ skipn (S n) l = r /\ forall d, nth n l d = x.
Proof.
  revert l. induction n as [|n IH]; intros l H.
  - destruct l; cbn in H; [discriminate|]. injection H as -> ->. cbn. repeat split; lia.
  - destruct l as [|y l]; [discriminate|]. cbn [skipn] in H. destruct (IH l H) as (A1 & A2 & A3).
    cbn [List.length]. repeat split; [lia| |].
    + exact A2.
    + intros d. cbn. apply A3.
Qed.

Lemma skipn_plus {A} a b (l : list A) : skipn (a + b) l = skipn b (skipn a l).
Proof. revert l. induction a as [|a IH]; intros l; [reflexivity|]. destruct l; cbn; [destruct b; reflexivity|apply IH]. Qed.

Lemma fill_pending f : f_memory f = false -> (List.length (f_buf f) <= f_bufpos f)%nat ->
  pending (fill f) = pending f.
Proof.
  intros Hm Hb. unfold pending, fill. cbn [f_memory f_bufpos f_buf f_fail f_stream f_content]. rewrite Hm.
  rewrite (skipn_all2 (f_buf f)) by lia. cbn [app skipn].
  destruct (f_fail f); cbn [orb]; [reflexivity|].
  set (s := skipn (f_stream f) (f_content f)).
  destruct (Nat.ltb_spec (List.length (firstn buffer_size s)) buffer_size) as [L|L].
  - rewrite app_nil_r. rewrite firstn_length in L. apply firstn_all2. lia.
  - rewrite skipn_plus. fold s. rewrite firstn_length. rewrite firstn_length in L.
    replace (Nat.min buffer_size (List.length s)) with buffer_size by lia. apply firstn_skipn.
Qed.

Lemma get_char_reads f m e er b rest : reads f m e er (b :: rest) ->
  exists f', get_char f = ROk (b, f') /\ reads f' m e er rest /\ f_pos f' = S (f_pos f) /\ f_content f' = f_content f.
Proof.
  intros [Hm He Her Hp Hr Hq]. unfold get_char. rewrite Hm.
  destruct (skipn_cons_inv _ _ _ _ Hr) as (L & Hs & Hn).
  destruct m.
  - rewrite (proj2 (Nat.leb_le _ _) Hp). rewrite Hn. eexists. split; [reflexivity|].
    split; [|split; reflexivity].
    constructor; cbn [f_memory f_encoding f_error f_pos f_content]; try assumption; try reflexivity; try lia.
  - set (g := if (List.length (f_buf f) <=? f_bufpos f)%nat then fill f else f).
    assert (Hg : f_memory g = false /\ f_encoding g = e /\ f_error g = er /\ f_pos g = f_pos f /\
                 f_content g = f_content f /\ pending g = b :: rest /\
                 ((f_bufpos g < List.length (f_buf g))%nat \/
                  (f_fail g = true \/ skipn (f_stream g) (f_content g) = []))).
    { unfold g. destruct (Nat.leb_spec (List.length (f_buf f)) (f_bufpos f)) as [L1|L1].
      - repeat split; try assumption.
        + rewrite fill_pending; assumption.
        + unfold fill. cbn [f_bufpos f_buf f_fail f_stream f_content].
          destruct (f_fail f); [right; left; reflexivity|].
          destruct (firstn buffer_size (skipn (f_stream f) (f_content f))) eqn:E;
            [right; left; reflexivity|left; cbn [List.length]; lia].
      - repeat split; try assumption. left. exact L1. }
    destruct Hg as (G1 & G2 & G3 & G4 & G5 & G6 & G7).
    unfold pending in G6. rewrite G1 in G6.
    destruct (skipn (f_bufpos g) (f_buf g)) as [|b' r'] eqn:E.
    + exfalso. destruct G7 as [G7|[G7|G7]].
      * apply (f_equal (@List.length Z)) in E. rewrite skipn_length in E. cbn in E. lia.
      * rewrite G7 in G6. discriminate.
      * rewrite G7 in G6. destruct (f_fail g); discriminate.
    + cbn [app] in G6. injection G6 as -> G6. eexists. split; [reflexivity|].
      split; [|rewrite G4, G5; split; reflexivity].
      destruct (skipn_cons_inv _ _ _ _ E) as (L2 & Hs2 & _).
      constructor; cbn [f_memory f_encoding f_error f_pos f_content]; rewrite ?G4, ?G5; try assumption; try reflexivity; try lia.
      unfold pending. cbn [f_memory f_bufpos f_buf f_fail f_stream f_content]. rewrite Hs2, <- G6, G5. reflexivity.
Qed.

(* ---- characters ---- *)

Definition scheme_of (e : encoding) : option scheme :=
  match e with UTF8 => Some Utf8 | UTF16LE => Some Utf16le | UTF16BE => Some Utf16be | _ => None end.

Lemma char_parts c : is_char c -> 0 <= c / 4096 < 16 /\ 0 <= c / 256 < 256 /\ 0 <= c mod 256 < 256 /\
  0 <= c mod 64 < 64 /\ 0 <= (c / 64) mod 64 < 64 /\ (c < 2048 -> 0 <= c / 64 < 32).
Proof.
  unfold is_char. intros H.
  repeat split; try (apply Z.div_pos; lia); try (apply Z.div_lt_upper_bound; lia); try (apply Z.mod_pos_bound; lia).
Qed.

Section R.
  Variable sjis : Z -> option Z.

Lemma more_bytes_step n v f m e er x rest :
  0 <= x < 64 -> reads f m e er (128 + x :: rest) ->
  exists f', more_bytes (S n) v f = more_bytes n (u32 (v * 64 + x)) f' /\ reads f' m e er rest /\ f_content f' = f_content f.
Proof.
  intros Hx H. destruct (get_char_reads _ _ _ _ _ _ H) as (f' & E & R & _ & C).
  exists f'. split; [|split; assumption]. cbn [more_bytes]. rewrite E. cbn [rbind].
  destruct (cont x Hx) as [A B]. rewrite A, B, join6 by lia. reflexivity.
Qed.

Lemma read_value_char f m e er s c rest :
  scheme_of e = Some s -> is_char c -> reads f m e er (encode s c ++ rest) ->
  exists f', read_value sjis f = ROk (c, f') /\ reads f' m e er rest /\ f_content f' = f_content f.
Proof.
  intros Hs Hc H. destruct (char_parts c Hc) as (P1 & P2 & P3 & P4 & P5 & P6).
  pose proof Hc as Hc'. unfold is_char in Hc'.
  unfold read_value. rewrite (rd_e _ _ _ _ _ H).
  destruct e; try discriminate; injection Hs as <-; cbn [encode] in H.
  - unfold utf8 in H. destruct (c <? 128) eqn:E1; [|destruct (c <? 2048) eqn:E2]; cbn [app] in H;
      destruct (get_char_reads _ _ _ _ _ _ H) as (f1 & E & R1 & _ & C1); rewrite E; cbn [rbind].
    + destruct (ascii_byte c) as [A B]; [lia|]. rewrite A, B.
      destruct (c >? 0x7F) eqn:E3; [lia|]. eauto.
    + destruct (lead2 (c / 64)) as [A B]; [apply P6; lia|]. rewrite A, B.
      destruct (more_bytes_step 0 (c / 64) f1 m UTF8 er _ _ P4 R1) as (f2 & E' & R2 & C2).
      rewrite E'. cbn [more_bytes]. exists f2. split; [|split; [assumption|congruence]].
      rewrite u32_small by (pose proof (Z.div_mod c 64); lia).
      f_equal. f_equal. pose proof (Z.div_mod c 64). lia.
    + destruct (lead3 (c / 4096) P1) as (A & B & D). rewrite A, B, D.
      destruct (more_bytes_step 1 (c / 4096) f1 m UTF8 er _ _ P5 R1) as (f2 & E' & R2 & C2). rewrite E'.
      rewrite u32_small by lia.
      destruct (more_bytes_step 0 (c / 4096 * 64 + (c / 64) mod 64) f2 m UTF8 er _ _ P4 R2) as (f3 & E'' & R3 & C3).
      rewrite E''. cbn [more_bytes]. exists f3. split; [|split; [assumption|congruence]].
      pose proof (Z.div_mod c 64). pose proof (Z.div_mod (c / 64) 64).
      rewrite (Z.div_div c 64 64) in * by lia. change (64 * 64) with 4096 in *.
      rewrite u32_small by lia. f_equal. f_equal. lia.
  - cbn [utf16le app] in H.
    destruct (get_char_reads _ _ _ _ _ _ H) as (f1 & E & R1 & _ & C1). rewrite E. cbn [rbind].
    destruct (get_char_reads _ _ _ _ _ _ R1) as (f2 & E' & R2 & _ & C2). rewrite E'. cbn [rbind].
    exists f2. split; [|split; [assumption|congruence]].
    rewrite join8 by lia. f_equal. f_equal. pose proof (Z.div_mod c 256). lia.
  - cbn [utf16be app] in H.
    destruct (get_char_reads _ _ _ _ _ _ H) as (f1 & E & R1 & _ & C1). rewrite E. cbn [rbind].
    destruct (get_char_reads _ _ _ _ _ _ R1) as (f2 & E' & R2 & _ & C2). rewrite E'. cbn [rbind].
    exists f2. split; [|split; [assumption|congruence]].
    rewrite join8 by lia. f_equal. f_equal. pose proof (Z.div_mod c 256). lia.
Qed.

Lemma encode_nonempty s c : encode s c <> [].
Proof. destruct s; cbn; unfold utf8, utf16le, utf16be; [destruct (c <? 128); [|destruct (c <? 2048)]|..]; discriminate. Qed.

Lemma reads_at_end f m e er rest : reads f m e er rest -> at_end f = match rest with [] => true | _ => false end.
Proof.
  intros [_ _ _ Hp Hr _]. unfold at_end. destruct rest as [|b rest].
  - apply (f_equal (@List.length Z)) in Hr. rewrite skipn_length in Hr. cbn in Hr.
    apply Nat.leb_le. lia.
  - destruct (skipn_cons_inv _ _ _ _ Hr) as (L & _). apply Nat.leb_gt. lia.
Qed.

Lemma reads_seek f f2 er m' rest : f_content f2 = f_content f -> f_memory f2 = true -> f_error f2 = er ->
  reads f true UTF8 er rest -> reads f2 true UTF8 er m' -> reads (seek f2 (f_pos f)) true UTF8 er rest.
Proof.
  intros C M Er [Hm He Her Hp Hr Hq] [Gm Ge Ger Gp Gr Gq]. unfold seek. rewrite M.
  constructor; cbn [f_memory f_encoding f_error f_pos f_content]; rewrite ?C; try assumption; try reflexivity.
Qed.

(** What readCharacter gives on a sequence of characters. *)
Inductive step (m : bool) : list Z -> Z -> list Z -> Prop :=
| step_char c cs : c <> CR -> step m (c :: cs) c cs
| step_crlf cs : step m (CR :: LF :: cs) LF cs
| step_end : step m [CR] CR []
| step_cr c cs : m = true -> c <> LF -> step m (CR :: c :: cs) CR (c :: cs).

Definition enc s := flat_map (encode s).

Lemma read_character_step f m e er s cs c cs' :
  scheme_of e = Some s -> Forall is_char cs -> (m = true -> e = UTF8) ->
  reads f m e er (enc s cs) -> step m cs c cs' ->
  exists f', read_character sjis f = ROk (c, f') /\ reads f' m e er (enc s cs') /\ f_content f' = f_content f.
Proof.
  intros Hs Hcs Hme H St. unfold read_character.
  assert (P : forall c0 cs0, cs = c0 :: cs0 ->
    exists f', read_value sjis f = ROk (c0, f') /\ reads f' m e er (enc s cs0) /\ f_content f' = f_content f).
  { intros c0 cs0 ->. inversion Hcs; subst. apply (read_value_char f m e er s c0 (enc s cs0) Hs); assumption. }
  destruct St as [c0 cs0 Hne | cs0 | | c0 cs0 Hm Hne];
    destruct (P _ _ eq_refl) as (f1 & E & R & C); rewrite E; cbn [rbind]; unfold CR, LF in *.
  - replace (c0 =? 13) with false by lia. cbn [andb]. eauto.
  - cbn [Z.eqb Pos.eqb]. rewrite (reads_at_end _ _ _ _ _ R).
    assert (Q : exists b r, enc s (10 :: cs0) = b :: r).
    { cbn [enc flat_map]. pose proof (encode_nonempty s 10). destruct (encode s 10); [congruence|]. cbn [app]. eauto. }
    destruct Q as (b & r & Q). rewrite Q. cbn [negb andb].
    inversion Hcs as [|? ? ? Hcs']; subst. inversion Hcs'; subst.
    destruct (read_value_char f1 m e er s 10 (enc s cs0) Hs) as (f2 & E2 & R2 & C2); [assumption|exact R|].
    rewrite E2. cbn [rbind Z.eqb Pos.eqb]. exists f2. repeat split; try apply R2. congruence.
  - rewrite (reads_at_end _ _ _ _ _ R). cbn [enc flat_map Z.eqb Pos.eqb negb andb].
    exists f1. repeat split; try assumption; apply R.
  - rewrite (reads_at_end _ _ _ _ _ R).
    assert (Q : exists b r, enc s (c0 :: cs0) = b :: r).
    { cbn [enc flat_map]. pose proof (encode_nonempty s c0). destruct (encode s c0); [congruence|]. cbn [app]. eauto. }
    destruct Q as (b & r & Q). rewrite Q. cbn [Z.eqb Pos.eqb negb andb].
    inversion Hcs as [|? ? ? Hcs']; subst. inversion Hcs'; subst.
    destruct (read_value_char f1 true e er s c0 (enc s cs0) Hs) as (f2 & E2 & R2 & C2); [assumption|exact R|].
    rewrite E2. cbn [rbind]. replace (c0 =? 10) with false by lia.
    rewrite (Hme eq_refl) in *. eexists. split; [reflexivity|]. split.
    + eapply reads_seek; [exact C2|apply R2|apply R2|rewrite <- Q; exact R|exact R2].
    + unfold seek. destruct (f_memory f2); cbn [f_content]; congruence.
Qed.

(** Lines: a CR inside is allowed in memory, but not before LF. *)
Definition line_ok (m : bool) (l : list Z) : Prop := is_line l /\ (m = false -> ~ In CR l).

Lemma is_line_char l : is_line l -> Forall is_char l.
Proof. unfold is_line. intros H. eapply Forall_impl; [|exact H]. intros a [A _]. exact A. Qed.

Lemma enc_encode l : is_line l -> flat_map utf8_encode l = flat_map utf8 l.
Proof.
  intros H. apply is_line_char in H. induction H as [|c l Hc Hl IH]; [reflexivity|].
  cbn [flat_map]. rewrite utf8_encode_eq, IH by assumption. reflexivity.
Qed.

(** The character after the line, when CRLF is one character. *)
Lemma read_line_step fuel f m e er s l tail acc (f' : tfile) rest :
  scheme_of e = Some s -> (m = true -> e = UTF8) -> line_ok m l -> Forall is_char tail ->
  (* how the line goes on *)
  (forall g acc fuel', (1 <= fuel')%nat -> reads g m e er (enc s tail) -> f_content g = f_content f ->
     exists g', read_line sjis fuel' g acc = ROk (acc, g') /\ reads g' m e er rest) ->
  (tail = [] \/ (exists c t, tail = c :: t /\ (c = CR \/ (c = LF /\ last l LF <> CR)))) ->
  (m = false -> True) ->
  (List.length l < fuel)%nat ->
  reads f m e er (enc s (l ++ tail)) ->
  exists g', read_line sjis fuel f acc = ROk (acc ++ flat_map utf8 l, g') /\ reads g' m e er rest.
Proof.
  intros Hs Hme Hl Ht Hstop Htail _ Hf H. clear f'.
  revert fuel f acc Hstop Hl Htail Hf H. induction l as [|c l IH]; intros fuel f acc Hstop Hl Htail Hf H.
  - cbn [app flat_map] in *. rewrite app_nil_r. apply Hstop; [lia|exact H|reflexivity].
  - destruct fuel as [|fuel]; [cbn in Hf; lia|]. cbn [read_line].
    assert (Hne : (f_pos f <? List.length (f_content f))%nat = true).
    { pose proof (reads_at_end _ _ _ _ _ H) as Q. unfold at_end in Q.
      cbn [app enc flat_map] in Q. pose proof (encode_nonempty s c) as N. destruct (encode s c); [congruence|].
      cbn [app] in Q. apply Nat.leb_gt in Q. apply Nat.ltb_lt. lia. }
    rewrite Hne.
    destruct Hl as [Hl Hcr]. inversion Hl as [|? ? [Hc Hlf] Hl']; subst.
    assert (St : step m ((c :: l) ++ tail) c (l ++ tail)).
    { destruct (Z.eq_dec c CR) as [->|Hncr]; [|constructor; assumption].
      destruct m; [|exfalso; apply (Hcr eq_refl); left; reflexivity].
      destruct l as [|c2 l].
      - cbn [app]. destruct Htail as [->|(c' & t & -> & Q)]; [apply step_end|].
        apply step_cr; [reflexivity|]. destruct Q as [->|[-> Q]]; [discriminate|]. cbn in Q. congruence.
      - cbn [app]. apply step_cr; [reflexivity|]. inversion Hl' as [|? ? [_ Q] _]; assumption. }
    assert (Hall : Forall is_char ((c :: l) ++ tail)) by (apply Forall_app; split; [apply is_line_char; exact Hl|exact Ht]).
    destruct (read_character_step f m e er s _ _ _ Hs Hall Hme H St)
      as (f1 & E & R & C).
    rewrite E. cbn [rbind]. unfold LF in Hlf. replace (c =? 10) with false by lia.
    destruct (IH fuel f1 (acc ++ utf8_encode c)) as (g' & E' & R').
    + intros g acc0 fuel' Hf' Hg Hcg. apply Hstop; [assumption|assumption|congruence].
    + split; [assumption|]. intros Hm Hin. apply (Hcr Hm). right. assumption.
    + destruct Htail as [->|(c' & t & -> & Q)]; [left; reflexivity|right].
      exists c', t. split; [reflexivity|]. destruct Q as [->|[-> Q]]; [left; reflexivity|right; split; [reflexivity|]].
      destruct l; [cbn; discriminate|exact Q].
    + cbn [List.length] in Hf. lia.
    + exact R.
    + exists g'. split; [|exact R']. rewrite E'. cbn [flat_map]. rewrite utf8_encode_eq by assumption.
      rewrite <- app_assoc. reflexivity.
Qed.

Lemma read_line_terminated fuel f m e er s l crlf cs acc :
  scheme_of e = Some s -> (m = true -> e = UTF8) -> line_ok m l -> (crlf = false -> last l LF <> CR) ->
  Forall is_char cs -> (List.length l < fuel)%nat ->
  reads f m e er (enc s (l ++ newline crlf ++ cs)) ->
  exists g, read_line sjis fuel f acc = ROk (acc ++ flat_map utf8 l, g) /\ reads g m e er (enc s cs).
Proof.
  intros Hs Hme Hl Hlast Hcs Hf H.
  assert (Hch : Forall is_char (newline crlf ++ cs)).
  { apply Forall_app. split; [|assumption]. destruct crlf; repeat constructor; unfold is_char, CR, LF; lia. }
  apply (read_line_step fuel f m e er s l (newline crlf ++ cs) acc f (enc s cs)); try assumption; try tauto.
  - intros g acc0 fuel' Hf' Hg Hcg. destruct fuel' as [|k]; [lia|]. cbn [read_line].
    assert (Hne : (f_pos g <? List.length (f_content g))%nat = true).
    { pose proof (reads_at_end _ _ _ _ _ Hg) as Q. unfold at_end in Q.
      assert (N : exists b r, enc s (newline crlf ++ cs) = b :: r).
      { destruct crlf; cbn [newline app enc flat_map].
        - pose proof (encode_nonempty s CR). destruct (encode s CR); [congruence|]. cbn [app]. eauto.
        - pose proof (encode_nonempty s LF). destruct (encode s LF); [congruence|]. cbn [app]. eauto. }
      destruct N as (b & r & N). rewrite N in Q. apply Nat.leb_gt in Q. apply Nat.ltb_lt. lia. }
    rewrite Hne.
    assert (St : step m (newline crlf ++ cs) LF cs).
    { destruct crlf; cbn [newline app]; [apply step_crlf|constructor; discriminate]. }
    destruct (read_character_step g m e er s _ _ _ Hs Hch Hme Hg St) as (f1 & E & R & C).
    rewrite E. cbn [rbind]. unfold LF. cbn [Z.eqb Pos.eqb]. eauto.
  - right. destruct crlf; cbn [newline app]; eexists; eexists; (split; [reflexivity|]); [left; reflexivity|right; split; [reflexivity|auto]].
Qed.

Lemma read_line_last fuel f m e er s l acc :
  scheme_of e = Some s -> (m = true -> e = UTF8) -> line_ok m l -> (List.length l < fuel)%nat ->
  reads f m e er (enc s l) ->
  exists g, read_line sjis fuel f acc = ROk (acc ++ flat_map utf8 l, g) /\ reads g m e er [].
Proof.
  intros Hs Hme Hl Hf H.
  apply (read_line_step fuel f m e er s l [] acc f []); try assumption; try tauto.
  - constructor.
  - intros g acc0 fuel' Hf' Hg Hcg. destruct fuel' as [|k]; [lia|]. cbn [read_line].
    pose proof (reads_at_end _ _ _ _ _ Hg) as Q. cbn in Q. unfold at_end in Q. apply Nat.leb_le in Q.
    rewrite (proj2 (Nat.ltb_ge _ _)) by lia. eauto.
  - rewrite app_nil_r. assumption.
Qed.

Definition text_ok (m : bool) (t : text) : Prop := good_text t /\ (m = false -> no_stray_cr t).

Lemma read_all_text fuel f m e er s t :
  scheme_of e = Some s -> (m = true -> e = UTF8) -> text_ok m t ->
  (List.length (characters t) < fuel)%nat -> reads f m e er (encoded s t) ->
  exists g, read_all sjis fuel f = ROk (utf8_lines t, g) /\ f_error g = er.
Proof.
  intros Hs Hme. destruct t as [ls r]. revert fuel f.
  induction ls as [|[l crlf] ls IH]; intros fuel f [[Hg Hr] Hcr] Hf H.
  - unfold encoded, characters, utf8_lines, lines in *. cbn [x_lines x_rest flat_map app map] in *.
    destruct r as [|c r].
    + destruct fuel as [|fuel]; [cbn in Hf; lia|]. cbn [read_all]. rewrite (reads_at_end _ _ _ _ _ H).
      cbn [flat_map map]. exists f. split; [reflexivity|apply H].
    + destruct fuel as [|fuel]; [lia|]. cbn [read_all]. rewrite (reads_at_end _ _ _ _ _ H).
      assert (N : exists b q, flat_map (encode s) (c :: r) = b :: q).
      { cbn [flat_map]. pose proof (encode_nonempty s c). destruct (encode s c); [congruence|]. cbn [app]. eauto. }
      destruct N as (b & q & N). rewrite N.
      destruct (read_line_last (S fuel) f m e er s (c :: r) [] Hs Hme) as (g & E & R).
      * split; [exact Hr|]. intros Hm. apply (Hcr Hm).
      * exact Hf.
      * exact H.
      * rewrite E. cbn [rbind]. destruct fuel as [|fuel]; [cbn [List.length] in Hf; lia|].
        cbn [read_all]. rewrite (reads_at_end _ _ _ _ _ R). cbn [rbind map]. exists g.
        split; [reflexivity|apply R].
  - unfold characters, encoded in *. cbn [x_lines x_rest flat_map] in *.
    set (cs := flat_map (fun '(l0, crlf0) => l0 ++ newline crlf0) ls ++ r).
    assert (Ecs : ((l ++ newline crlf) ++ flat_map (fun '(l0, crlf0) => l0 ++ newline crlf0) ls) ++ r
                  = l ++ newline crlf ++ cs) by (unfold cs; rewrite <- !app_assoc; reflexivity).
    assert (Hlen : (List.length l + 1 + List.length cs < fuel)%nat).
    { revert Hf. unfold characters. cbn [x_lines x_rest flat_map]. rewrite Ecs. rewrite !app_length.
      destruct crlf; cbn [newline List.length]; lia. }
    unfold characters in H. cbn [x_lines x_rest flat_map] in H. rewrite Ecs in H. clear Ecs Hf.
    destruct fuel as [|fuel]; [lia|].
    cbn [read_all]. rewrite (reads_at_end _ _ _ _ _ H).
    assert (N : exists b q, flat_map (encode s) (l ++ newline crlf ++ cs) = b :: q).
    { assert (exists c q, l ++ newline crlf ++ cs = c :: q) as (c & q & ->)
        by (destruct l; [destruct crlf|]; cbn [app newline]; eauto).
      cbn [flat_map]. pose proof (encode_nonempty s c). destruct (encode s c); [congruence|]. cbn [app]. eauto. }
    destruct N as (b & q & N). rewrite N.
    destruct (Hg l crlf (or_introl eq_refl)) as [Hl Hlast].
    assert (Hcs : Forall is_char cs).
    { unfold cs. apply Forall_app. split; [|apply is_line_char; exact Hr].
      apply Forall_flat_map. apply Forall_forall. intros [l0 k0] Hin.
      destruct (Hg l0 k0 (or_intror Hin)) as [Hl0 _]. apply Forall_app. split; [apply is_line_char; assumption|].
      destruct k0; repeat constructor; unfold is_char, CR, LF; lia. }
    destruct (read_line_terminated (S fuel) f m e er s l crlf cs [] Hs Hme) as (g & E & R).
    + split; [exact Hl|]. intros Hm. destruct (Hcr Hm) as [Q _]. apply (Q l crlf). left. reflexivity.
    + exact Hlast.
    + exact Hcs.
    + lia.
    + exact H.
    + rewrite E. cbn [rbind app]. destruct (IH fuel g) as (g' & E' & R').
      * split; [split; [|exact Hr]|].
        -- intros l0 k0 Hin. apply (Hg l0 k0). right. exact Hin.
        -- intros Hm. destruct (Hcr Hm) as [Q1 Q2]. split; [|exact Q2]. intros l0 k0 Hin. apply (Q1 l0 k0). right. exact Hin.
      * unfold characters. cbn [x_lines x_rest]. fold cs. lia.
      * exact R.
      * rewrite E'. cbn [rbind]. exists g'. split; [reflexivity|exact R'].
Qed.

End R.

(* ---- opening ---- *)

Lemma reads_open_memory content : reads (open_memory content) true UTF8 false content.
Proof. constructor; cbn; try reflexivity. lia. Qed.

Definition encoding_of (s : scheme) : encoding :=
  match s with Utf8 => UTF8 | Utf16le => UTF16LE | Utf16be => UTF16BE end.
Lemma scheme_encoding s : scheme_of (encoding_of s) = Some s.
Proof. destruct s; reflexivity. Qed.

Lemma reads_open_mark s bytes d : (3 <= List.length (mark s ++ bytes))%nat ->
  reads (open_file (mark s ++ bytes) d) false (encoding_of s) false bytes.
Proof.
  intros L. unfold open_file. rewrite (proj2 (Nat.ltb_ge _ _)) by lia.
  destruct s; change (mark Utf8) with [0xEF; 0xBB; 0xBF] in *; change (mark Utf16le) with [0xFF; 0xFE] in *;
    change (mark Utf16be) with [0xFE; 0xFF] in *; cbn [app nth Z.eqb Pos.eqb andb];
    constructor; cbn [f_memory f_encoding f_error f_pos f_content encoding_of]; try reflexivity; cbn [List.length]; lia.
Qed.

Lemma reads_open_plain bytes : (3 <= List.length bytes)%nat ->
  (nth 0 bytes 0 < 0xFE) -> firstn 3 bytes <> mark Utf8 ->
  forall d, d = GUESS \/ d = UTF8 ->
  reads (open_file bytes d) false UTF8 false bytes.
Proof.
  intros L H0 Hm d Hd. unfold open_file. rewrite (proj2 (Nat.ltb_ge _ _)) by lia.
  replace (nth 0 bytes 0 =? 0xFE) with false by lia. replace (nth 0 bytes 0 =? 0xFF) with false by lia.
  cbn [andb].
  assert (E : (nth 0 bytes 0 =? 239) && (nth 1 bytes 0 =? 187) && (nth 2 bytes 0 =? 191) = false).
  { destruct bytes as [|b0 [|b1 [|b2 bytes]]]; try (cbn in L; lia). cbn [nth firstn] in *.
    apply not_true_is_false. intros Q. apply Hm. change (mark Utf8) with [239; 187; 191].
    apply andb_true_iff in Q. destruct Q as [Q Q3]. apply andb_true_iff in Q. destruct Q as [Q1 Q2].
    apply Z.eqb_eq in Q1, Q2, Q3. congruence. }
  rewrite E. constructor; cbn [f_memory f_encoding f_error f_pos f_content]; try reflexivity; try lia.
  destruct Hd as [->| ->]; reflexivity.
Qed.

Lemma utf8_first c rest : is_char c -> nth 0 (utf8 c ++ rest) 0 < 0xFE.
Proof.
  intros H. destruct (char_parts c H) as (P1 & _ & _ & _ & _ & P6). unfold utf8.
  destruct (c <? 128) eqn:E1; [cbn; lia|]. destruct (c <? 2048) eqn:E2; cbn [app nth]; [|lia].
  specialize (P6 ltac:(lia)). lia.
Qed.

Lemma utf8_length c : (1 <= List.length (utf8 c) <= 3)%nat.
Proof. unfold utf8. destruct (c <? 128); [|destruct (c <? 2048)]; cbn; lia. Qed.

(* ---- injectivity ---- *)

Lemma utf8_prefix_free c d r1 r2 : is_char c -> is_char d -> utf8 c ++ r1 = utf8 d ++ r2 -> c = d /\ r1 = r2.
Proof.
  intros Hc Hd H.
  pose proof (reads_open_memory (utf8 c ++ r1)) as R.
  destruct (read_value_char (fun _ => None) _ true UTF8 false Utf8 c r1 eq_refl Hc R) as (f1 & E1 & R1 & _).
  rewrite H in R.
  destruct (read_value_char (fun _ => None) _ true UTF8 false Utf8 d r2 eq_refl Hd R) as (f2 & E2 & R2 & _).
  rewrite H in E1. rewrite E1 in E2. injection E2 as -> ->. split; [reflexivity|].
  rewrite <- (rd_rest _ _ _ _ _ R1). apply (rd_rest _ _ _ _ _ R2).
Qed.

Lemma utf8_not_mark c rest : is_char c -> c <> 0xFEFF -> firstn 3 (utf8 c ++ rest) <> mark Utf8.
Proof.
  intros Hc Hn H. apply Hn.
  assert (E : utf8 c ++ rest = utf8 0xFEFF ++ skipn 3 (utf8 c ++ rest)).
  { rewrite <- (firstn_skipn 3 (utf8 c ++ rest)) at 1. rewrite H. reflexivity. }
  apply (utf8_prefix_free c 0xFEFF _ _ Hc) in E; [tauto|unfold is_char; lia].
Qed.

(* ---- files that never end ---- *)

Record stuck (f : tfile) : Prop := mkStuck {
  st_m : f_memory f = false; st_e : f_encoding f = UTF8; st_b : f_buf f = []; st_p : f_bufpos f = 0%nat;
  st_f : f_fail f = true; st_l : (f_pos f < List.length (f_content f))%nat }.

Lemma stuck_value sjis f : stuck f -> exists f', read_character sjis f = ROk (0, f') /\ stuck f'.
Proof.
  intros [M E B P F L]. destruct f as [m co e po b bp stv fa er].
  cbn [f_memory f_encoding f_buf f_bufpos f_fail f_pos f_content] in *. subst.
  unfold read_character, read_value. cbn. eexists. split; [reflexivity|].
  constructor; cbn; try reflexivity. exact L.
Qed.

Lemma stuck_line sjis fuel : forall f acc, stuck f -> read_line sjis fuel f acc = RErr.
Proof.
  induction fuel as [|fuel IH]; intros f acc H; [reflexivity|]. cbn [read_line].
  rewrite (proj2 (Nat.ltb_lt _ _) (st_l _ H)).
  destruct (stuck_value sjis f H) as (f' & E & H'). rewrite E. cbn [rbind Z.eqb]. apply IH. exact H'.
Qed.

Lemma stuck_all sjis fuel f : stuck f -> read_all sjis fuel f = RErr.
Proof.
  intros H. destruct fuel; [reflexivity|]. cbn [read_all].
  unfold at_end. rewrite (proj2 (Nat.leb_gt _ _) (st_l _ H)). rewrite stuck_line by exact H. reflexivity.
Qed.

Lemma short_file content : (1 <= List.length content <= 2)%nat ->
  ~ (content = [0xFE; 0xFF]) -> ~ (content = [0xFF; 0xFE]) ->
  stuck (open_file content GUESS).
Proof.
  intros L N1 N2. unfold open_file. rewrite (proj2 (Nat.ltb_lt _ _)) by lia.
  destruct content as [|b0 [|b1 [|b2 l]]]; cbn [List.length] in L; try lia; cbn [nth List.length].
  - replace (0 =? 0xFF) with false by reflexivity. replace (0 =? 0xFE) with false by reflexivity.
    replace (0 =? 0xBB) with false by reflexivity. rewrite !andb_false_r. cbn [andb].
    constructor; cbn; try reflexivity; lia.
  - replace (0 =? 0xBF) with false by reflexivity. rewrite !andb_false_r.
    destruct ((b0 =? 254) && (b1 =? 255)) eqn:E1.
    { exfalso. apply N1. apply andb_true_iff in E1. destruct E1 as [E1 E2]. apply Z.eqb_eq in E1, E2. congruence. }
    destruct ((b0 =? 255) && (b1 =? 254)) eqn:E2.
    { exfalso. apply N2. apply andb_true_iff in E2. destruct E2 as [E2 E3]. apply Z.eqb_eq in E2, E3. congruence. }
    constructor; cbn; try reflexivity; lia.
Qed.

(* ---- one character, with the position afterwards ---- *)

Lemma memory_value : forall sjis c before after, is_char c ->
  let content := before ++ utf8_encode c ++ after in
  let at_pos n := mkFile true content UTF8 n [] 0 0 false false in
  read_value sjis (at_pos (List.length before))
  = ROk (c, at_pos (List.length before + List.length (utf8_encode c))%nat).
Proof.
  intros sjis c before after Hc content at_pos. unfold content in *. clear content.
  assert (R : reads (at_pos (List.length before)) true UTF8 false (encode Utf8 c ++ after)).
  { assert (E : skipn (List.length before) (before ++ utf8_encode c ++ after) = utf8 c ++ after).
    { rewrite skipn_app, skipn_all, Nat.sub_diag. cbn [app skipn]. rewrite utf8_encode_eq by exact Hc. reflexivity. }
    constructor; cbn [f_memory f_encoding f_error f_pos f_content at_pos encode]; try reflexivity; try exact E.
    rewrite app_length. lia. }
  destruct (read_value_char sjis _ true UTF8 false Utf8 c after eq_refl Hc R) as (f' & E & R' & C).
  rewrite E. f_equal. f_equal.
  assert (K : f_buf f' = [] /\ f_bufpos f' = 0%nat /\ f_stream f' = 0%nat /\ f_fail f' = false).
  { clear - E. revert E. unfold read_value, at_pos. cbn [f_encoding].
    assert (G : forall f b f1, f_memory f = true -> get_char f = ROk (b, f1) ->
              f_memory f1 = true /\ f_buf f1 = f_buf f /\ f_bufpos f1 = f_bufpos f /\ f_stream f1 = f_stream f /\ f_fail f1 = f_fail f).
    { intros f b f1 Hm. unfold get_char. rewrite Hm. destruct (_ <=? _)%nat; [|discriminate].
      intros [= <- <-]. cbn. auto. }
    assert (GM : forall n v f x f1, f_memory f = true -> more_bytes n v f = ROk (x, f1) ->
              f_buf f1 = f_buf f /\ f_bufpos f1 = f_bufpos f /\ f_stream f1 = f_stream f /\ f_fail f1 = f_fail f).
    { induction n as [|n IH]; intros v f x f1 Hm; cbn [more_bytes]; [intros [= <- <-]; auto|].
      destruct (get_char f) as [[b g]| |] eqn:Eg; cbn [rbind]; try discriminate.
      destruct (G _ _ _ Hm Eg) as (G1 & G2 & G3 & G4 & G5). intros H.
      destruct (Z.land b 192 =? 128); apply IH in H; cbn [f_memory f_buf f_bufpos f_stream f_fail set_error] in *;
        try assumption; intuition congruence. }
    match goal with |- context [get_char ?f] => destruct (get_char f) as [[b g]| |] eqn:Eg end; cbn [rbind]; try discriminate.
    pose proof (G _ _ _ (eq_refl : f_memory (mkFile true _ _ _ _ _ _ _ _) = true) Eg) as GG; destruct GG as (G1 & G2 & G3 & G4 & G5). cbn in G2, G3, G4, G5.
    destruct (Z.land b 224 =? 192); [intros H; apply GM in H; [intuition congruence|exact G1]|].
    destruct (Z.land b 240 =? 224); [intros H; apply GM in H; [intuition congruence|exact G1]|].
    intros [= -> <-]. destruct (c >? 127); cbn; auto. }
  destruct R' as [M1 E1 R1 P1 S1 _]. destruct f' as [m co e po bu bp stv fa er].
  cbn [f_memory f_content f_encoding f_pos f_buf f_bufpos f_stream f_fail f_error at_pos] in *.
  destruct K as (-> & -> & -> & ->). subst m e er co. unfold at_pos. f_equal.
  apply (f_equal (@List.length Z)) in S1. rewrite skipn_length, !app_length in S1. rewrite !app_length in P1. lia.
Qed.

