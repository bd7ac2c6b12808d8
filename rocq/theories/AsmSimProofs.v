(** Supporting proofs: encoding follows validation step by step, and both follow the layout. *)

Require Import ZArith List Bool Lia ZifyBool.
From Verif Require Import Ints IntsLemmas Res FileModel BytesSpec FileSpec BytesProofs FileProofs DataProofs AllocModel AsmModel AsmSpec AsmProofs.
Import ListNotations.
Local Open Scope Z_scope.
Ltac Zify.zify_post_hook ::= Z.div_mod_to_equations.


(** ** Writing *)

Definition moved (g : gfile) (n : Z) : gfile :=
  mkFile (g_name g) (g_original g) (g_mode g) (g_header0 g) (g_header g) (g_virtual g + n) true (g_pos g + n) false.
Record outp (i : nat) (g : gfile) (m m' : fmgr) (l : list Z) : Prop := mkOut {
  ou_files : f_files m' = set_file (f_files m) i (moved g (Z.of_nat (List.length l)));
  ou_active : f_active m' = f_active m;
  ou_big : f_big m' = f_big m;
  ou_contents : contents m' (g_name g) = put_bytes (contents m (g_name g)) (Z.to_nat (g_pos g)) l;
  ou_other : forall n, n <> g_name g -> f_disk m' n = f_disk m n;
  ou_exists : forall n, f_disk m n <> None -> f_disk m' n <> None;
  ou_range : is_int64 (g_virtual g + Z.of_nat (List.length l)) }.
Definition takes (m : fmgr) (i : nat) (g : gfile) : Prop :=
  active m = Some (i, g) /\ g_open g = true /\ g_fail g = false /\ 0 <= g_pos g /\ is_int64 (g_virtual g).

Lemma set_file_same l : forall i g, nth_error l i = Some g -> set_file l i g = l.
Proof. induction l as [|x l IH]; intros [|i] g H; cbn in *; try discriminate; [congruence|]. f_equal. apply IH. exact H. Qed.
Lemma moved_0 g : g_open g = true -> g_fail g = false -> moved g 0 = g.
Proof. unfold moved. rewrite !Z.add_0_r. destruct g; cbn. intros -> ->. reflexivity. Qed.
Lemma out_nil m i g : takes m i g -> outp i g m m [].
Proof.
  intros (A & O & F & P & R). destruct (active_some _ _ _ A) as [_ N]. constructor; auto.
  - cbn [List.length Z.of_nat]. rewrite moved_0 by assumption. symmetry. apply set_file_same. exact N.
  - cbn [List.length Z.of_nat]. rewrite Z.add_0_r. exact R.
Qed.
Lemma out_takes m m' i g l : takes m i g -> outp i g m m' l -> takes m' i (moved g (Z.of_nat (List.length l))).
Proof.
  intros (A & O & F & P & R) U. destruct (active_some _ _ _ A) as [Fa N]. repeat split.
  - unfold active. rewrite (ou_active _ _ _ _ _ U), Fa, (ou_files _ _ _ _ _ U), set_file_nth, Nat.eqb_refl, N. reflexivity.
  - cbn. lia.
  - apply (ou_range _ _ _ _ _ U).
  - apply (ou_range _ _ _ _ _ U).
Qed.
Lemma out_app m m1 m2 i g a b : takes m i g -> outp i g m m1 a -> outp i (moved g (Z.of_nat (List.length a))) m1 m2 b -> outp i g m m2 (a ++ b).
Proof.
  intros (A & O & F & P & R) U1 U2. destruct U1 as [F1 A1 B1 C1 O1 X1 R1], U2 as [F2 A2 B2 C2 O2 X2 R2].
  cbn [moved g_name g_pos g_virtual] in *. constructor; try congruence.
  - rewrite F2, F1, set_file_twice. unfold moved. cbn. rewrite app_length, Nat2Z.inj_add, !Z.add_assoc. reflexivity.
  - rewrite C2, C1, <- put_app. f_equal. lia.
  - intros n Hn. rewrite O2, O1 by exact Hn. reflexivity.
  - intros n Hn. apply X2, X1, Hn.
  - rewrite app_length, Nat2Z.inj_add, Z.add_assoc. exact R2.
Qed.
Lemma write_out m i g l m' b : takes m i g -> write m l = ROk (m', b) -> outp i g m m' l.
Proof.
  intros (A & O & F & P & R). unfold write. rewrite A, O. cbn [negb].
  destruct (in_int64 (g_virtual g + Z.of_nat (List.length l))) eqn:I; [|discriminate]. apply in_int64_iff in I. rewrite F.
  intros H. apply rok in H. assert (E : m' = fst (m', b)) by reflexivity. rewrite <- H in E. cbn [fst] in E. clear H. subst m'.
  constructor; try reflexivity.
  - cbn [set_disk put_file f_files]. f_equal. unfold stream_seek, set_virtual, moved. cbn. rewrite F, O. reflexivity.
  - unfold contents. cbn [set_disk put_file f_disk]. unfold disk_set. rewrite Nat.eqb_refl. reflexivity.
  - intros n Hn. cbn [set_disk put_file f_disk]. unfold disk_set. destruct (Nat.eqb_spec n (g_name g)); [congruence|reflexivity].
  - intros n Hn. cbn [set_disk put_file f_disk]. unfold disk_set. destruct (Nat.eqb_spec n (g_name g)); [discriminate|exact Hn].
  - exact I.
Qed.
Lemma w_write_out e i g l e' : takes (w_fm e) i g -> w_write e l = ROk e' -> exists m', e' = with_fm e m' /\ outp i g (w_fm e) m' l.
Proof.
  intros T H. unfold w_write in H. unbind H r E. apply rok in H. subst e'. destruct r as [m' b]. exists m'. split; [reflexivity|]. eapply write_out; eassumption.
Qed.

Section Out.
  Variable writable : nat -> bool.
  Variable own_big : bool.
  Lemma write_unit_out m i g u m' : takes m i g -> valid_unit (fst u) -> write_unit writable own_big m u = ROk m' ->
    outp i g m m' (encode_bytes (f_big m) (fst u) (snd u)).
  Proof.
    intros T V H. unfold write_unit in H. rewrite (unit_step _ _ _ _ _ V), (unit_write own_big m _ _ V) in H. unbind H r E. apply rok in H. subst m'.
    destruct r as [m' b]. eapply write_out; eassumption.
  Qed.
  Lemma write_all_out l : forall m i g m', takes m i g -> Forall (fun u => valid_unit (fst u)) l -> write_all writable own_big m l = ROk m' ->
    outp i g m m' (unit_bytes (f_big m) l).
  Proof.
    induction l as [|u l IH]; intros m i g m' T V H; cbn [write_all unit_bytes flat_map] in *.
    - apply rok in H. subst m'. apply out_nil. exact T.
    - unbind H m1 E. inversion V as [|? ? V1 V2]. subst. pose proof (write_unit_out _ _ _ _ _ T V1 E) as U1.
      pose proof (IH _ _ _ _ (out_takes _ _ _ _ _ T U1) V2 H) as U2. rewrite (ou_big _ _ _ _ _ U1) in U2. eapply out_app; [exact T|exact U1|exact U2].
  Qed.
  Lemma w_units_out e i g l e' : takes (w_fm e) i g -> Forall (fun u => valid_unit (fst u)) l -> w_units writable own_big e l = ROk e' ->
    exists m', e' = with_fm e m' /\ outp i g (w_fm e) m' (unit_bytes (f_big (w_fm e)) l).
  Proof.
    intros T V H. unfold w_units in H. unbind H m' E. apply rok in H. subst e'. exists m'. split; [reflexivity|]. apply write_all_out; assumption.
  Qed.
End Out.
Lemma repeat_split {A} (x : A) n k : repeat x (n + k) = repeat x n ++ repeat x k.
Proof. induction n; cbn; congruence. Qed.
Lemma fill_loop_out fuel : forall block byte n e i g e', takes (w_fm e) i g -> 0 <= block -> 0 <= n -> fill_loop fuel block byte n e = ROk e' ->
  exists m', e' = with_fm e m' /\ outp i g (w_fm e) m' (repeat byte (Z.to_nat n)).
Proof.
  induction fuel as [|fuel IH]; intros block byte n e i g e' T B N H; cbn [fill_loop] in H; [discriminate|].
  destruct (Z.ltb_spec block n) as [L|L].
  - unbind H e1 E. destruct (w_write_out _ _ _ _ _ T E) as (m1 & -> & U1). pose proof (out_takes _ _ _ _ _ T U1) as T1.
    assert (N1 : 0 <= n - block) by lia. destruct (IH _ _ _ (with_fm e m1) _ _ _ T1 B N1 H) as (m2 & -> & U2). exists m2. split; [reflexivity|].
    replace (Z.to_nat n) with (Z.to_nat block + Z.to_nat (n - block))%nat by lia. rewrite repeat_split. eapply out_app; [exact T|exact U1|exact U2].
  - eapply w_write_out; eassumption.
Qed.
Lemma area_loop_out fuel : forall byte n e i g e', takes (w_fm e) i g -> 0 <= n -> area_loop fuel byte n e = ROk e' ->
  exists m', e' = with_fm e m' /\ outp i g (w_fm e) m' (repeat byte (Z.to_nat n)).
Proof.
  induction fuel as [|fuel IH]; intros byte n e i g e' T N H; cbn [area_loop] in H; [discriminate|].
  destruct (Z.ltb_spec 0 n) as [L|L].
  - unbind H e1 E. destruct (w_write_out _ _ _ _ _ T E) as (m1 & -> & U1). pose proof (out_takes _ _ _ _ _ T U1) as T1.
    assert (N1 : 0 <= n - Z.min 64 n) by lia. destruct (IH _ _ (with_fm e m1) _ _ _ T1 N1 H) as (m2 & -> & U2). exists m2. split; [reflexivity|].
    replace (Z.to_nat n) with (Z.to_nat (Z.min 64 n) + Z.to_nat (n - Z.min 64 n))%nat by lia. rewrite repeat_split. eapply out_app; [exact T|exact U1|exact U2].
  - apply rok in H. subst e'. exists (w_fm e). split; [destruct e; reflexivity|]. replace (Z.to_nat n) with 0%nat by lia. apply out_nil. exact T.
Qed.

(** ** Keeping in step *)

Lemma static_trans a b c : static a b -> static b c -> static a c.
Proof. intros [] []. constructor; congruence. Qed.

Section Sync.
  Variable files : list gfile.
  Notation sync := (sync files).

  Lemma sync_step mv me me' i g ge g' ge' : sync mv me -> active mv = Some (i, g) -> active me = Some (i, ge) ->
    static g' g -> g_open g' = false -> static ge' ge ->
    f_files me' = set_file (f_files me) i ge' -> f_active me' = f_active me -> (forall n, f_disk me n <> None -> f_disk me' n <> None) ->
    level g' ge' -> sync (put_file mv i g') me'.
  Proof.
    intros [OK Ob Cl Ex Po] A Ae Sg Og Sge Ff Fa Ed Lv. destruct (active_some _ _ _ A) as [Av N]. destruct (active_some _ _ _ Ae) as [Ave Ne]. constructor.
    - eapply put_ok; eassumption.
    - pose proof (objects_put files me i ge ge' Ob Ne Sge) as H. unfold objects in *. rewrite Ff. exact H.
    - intros j x Hj Hna. rewrite Ff, set_file_nth in Hj. rewrite Fa in Hna. destruct (Nat.eqb_spec j i) as [->|Hne].
      + congruence.
      + eapply Cl; eassumption.
    - intros n Hn. apply Ed, Ex, Hn.
    - rewrite (active_put _ _ _ g' A). exists ge'. split; [|exact Lv]. unfold active. rewrite Fa, Ave, Ff, set_file_nth, Nat.eqb_refl, Ne. reflexivity.
  Qed.
  Lemma sync_takes mv me i g : sync mv me -> active mv = Some (i, g) -> exists ge, takes me i ge /\ level g ge.
  Proof.
    intros Sy A. pose proof (sy_pos _ _ _ Sy) as Po. rewrite A in Po. destruct Po as (ge & Ae & Lv). exists ge. split; [|exact Lv].
    destruct Lv as [Lh Lv Lo Lf Lp Ln Lr]. repeat split; try assumption; try lia; rewrite Lv; apply Lr.
  Qed.
  Lemma vpos_some m i g : active m = Some (i, g) -> vpos m = Some (mkPos i (g_header g) (g_virtual g)).
  Proof. unfold vpos. intros ->. reflexivity. Qed.
  Lemma vpos_put m i g g' : active m = Some (i, g) -> vpos (put_file m i g') = Some (mkPos i (g_header g') (g_virtual g')).
  Proof. intros A. apply vpos_some. eapply active_put. exact A. Qed.

  (** *** Going to an address *)
  Lemma seek_sync w e a w' e' : sync (w_fm w) (w_fm e) -> is_int64 a -> w_seek w a = ROk w' -> has_error w' = false -> w_seek e a = ROk e' ->
    goes a (pst_of w e) (pst_of w' e') /\ sync (w_fm w') (w_fm e') /\ w_slots e' = w_slots e /\ is_some (active (w_fm w)) = true.
  Proof.
    intros Sy Ra H B He. unfold w_seek in H. unbind H r E. apply rok in H. subst w'. destruct r as [m b].
    destruct (seek_quiet _ _ _ _ (proj2 (sy_ok _ _ _ Sy)) E) as [[Bb _]|(i & g & A & -> & Hp)]; [unfold bad, has_error in *; cbn in B; congruence|].
    destruct (sync_takes _ _ _ _ Sy A) as (ge & (Ae & _) & Lv). destruct Lv as [Lh Lvi Lo Lf Lp Ln Lr].
    unfold w_seek in He. unbind He r Ee. apply rok in He. subst e'. unfold seek_virtual in Ee. rewrite Ae in Ee. unfold file_seek_virtual in Ee. rewrite Lh in Ee.
    destruct (in_int64 (a - g_header g)); cbn [negb] in Ee; [|discriminate].
    destruct (Z.ltb_spec (a - g_header g) 0) as [Hx|_]; [lia|]. apply rok in Ee. subst r. cbn [fst snd with_fm w_fm w_slots].
    unfold set_virtual. cbn [g_open]. rewrite Lo. unfold stream_seek. cbn [g_fail g_name g_original g_mode g_header0 g_header g_virtual g_open]. rewrite Lf, Lh.
    split; [|split; [|split; [reflexivity|rewrite A; reflexivity] ] ].
    - unfold pst_of. cbn [with_fm w_fm put_file f_big f_disk w_table w_arch w_delay w_pool].
      pose proof (vpos_put _ _ _ (set_virtual g a) A) as Vp. unfold set_virtual in Vp. cbn [g_header g_virtual] in Vp.
      rewrite Vp. apply (goes_to a (pst_of w e) i (g_header g) (g_virtual g)); [apply vpos_some; exact A|exact Hp].
    - destruct (active_some _ _ _ A) as [_ N].
      eapply sync_step; [exact Sy|exact A|exact Ae|constructor; reflexivity|exact (quiet_nth _ _ _ (proj2 (sy_ok _ _ _ Sy)) N)|
        |reflexivity|reflexivity|auto|constructor; try reflexivity; assumption]. constructor; reflexivity.
  Qed.
  Lemma seek_physical_sync w e a w' e' : sync (w_fm w) (w_fm e) -> w_seek_physical w a = ROk w' -> has_error w' = false -> w_seek_physical e a = ROk e' ->
    exists f h v, vpos (w_fm w) = Some (mkPos f h v) /\ 0 <= a /\ goes (a + h) (pst_of w e) (pst_of w' e') /\ sync (w_fm w') (w_fm e') /\ w_slots e' = w_slots e.
  Proof.
    intros Sy H B He. unfold w_seek_physical in H. unbind H r E. apply rok in H. subst w'. destruct r as [m b].
    destruct (seek_physical_quiet _ _ _ _ (proj2 (sy_ok _ _ _ Sy)) E) as [[Bb _]|(i & g & A & -> & Hp & Hr)]; [unfold bad, has_error in *; cbn in B; congruence|].
    destruct (sync_takes _ _ _ _ Sy A) as (ge & (Ae & _) & Lv). destruct Lv as [Lh Lvi Lo Lf Lp Ln Lr].
    unfold w_seek_physical in He. unbind He r Ee. apply rok in He. subst e'. unfold seek_physical in Ee. rewrite Ae in Ee. unfold file_seek_physical in Ee. rewrite Lh in Ee.
    destruct (Z.ltb_spec a 0) as [Hx|_]; [lia|]. destruct (in_int64 (a + g_header g)); cbn [negb] in Ee; [|discriminate].
    apply rok in Ee. subst r. cbn [fst snd with_fm w_fm w_slots].
    unfold set_virtual. cbn [g_open]. rewrite Lo. unfold stream_seek. cbn [g_fail g_name g_original g_mode g_header0 g_header g_virtual g_open]. rewrite Lf, Lh.
    exists i, (g_header g), (g_virtual g). split; [apply vpos_some; exact A|]. split; [exact Hp|]. split; [|split; [|reflexivity] ].
    - unfold pst_of. cbn [with_fm w_fm put_file f_big f_disk w_table w_arch w_delay w_pool].
      pose proof (vpos_put _ _ _ (set_virtual g (a + g_header g)) A) as Vp. unfold set_virtual in Vp. cbn [g_header g_virtual] in Vp.
      rewrite Vp. apply (goes_to _ (pst_of w e) i (g_header g) (g_virtual g)); [apply vpos_some; exact A|lia].
    - destruct (active_some _ _ _ A) as [_ N].
      eapply sync_step; [exact Sy|exact A|exact Ae|constructor; reflexivity|exact (quiet_nth _ _ _ (proj2 (sy_ok _ _ _ Sy)) N)|
        |reflexivity|reflexivity|auto|constructor; cbn; try reflexivity; try assumption; lia]. constructor; reflexivity.
  Qed.
  Lemma advance_as_seek w n : w_advance w n = match active (w_fm w) with None => ROk (w_queue w) | Some (_, g) => w_seek w (s64 (g_virtual g + n)) end.
  Proof. unfold w_advance, w_seek. rewrite advance_seek. destruct (active (w_fm w)) as [[i g]|]; reflexivity. Qed.
  Lemma advance_sync w e n w' e' : sync (w_fm w) (w_fm e) -> w_advance w n = ROk w' -> has_error w' = false -> w_advance e n = ROk e' ->
    moves n (pst_of w e) (pst_of w' e') /\ sync (w_fm w') (w_fm e') /\ w_slots e' = w_slots e.
  Proof.
    intros Sy H B He. rewrite advance_as_seek in H, He. destruct (active (w_fm w)) as [[i g]|] eqn:A.
    - destruct (sync_takes _ _ _ _ Sy A) as (ge & (Ae & _) & Lv). rewrite Ae, (lv_virtual _ _ Lv) in He.
      destruct (seek_sync _ _ _ _ _ Sy (s64_range _) H B He) as (G & Sy' & Sl & _). split; [|auto].
      apply (moves_by n _ _ i (g_header g) (g_virtual g)); [apply vpos_some; exact A|exact G].
    - apply rok in H. subst w'. unfold has_error in B. discriminate.
  Qed.
  (** *** Output *)
  Lemma emit_sync w e n l w' e' : sync (w_fm w) (w_fm e) -> w_advance w n = ROk w' -> has_error w' = false ->
    (forall i ge, takes (w_fm e) i ge -> exists m', e' = with_fm e m' /\ outp i ge (w_fm e) m' l) -> n = Z.of_nat (List.length l) ->
    emits files l (pst_of w e) (pst_of w' e') /\ sync (w_fm w') (w_fm e') /\ w_slots e' = w_slots e.
  Proof.
    intros Sy H B He Hn. unfold w_advance in H. unbind H r E. apply rok in H. subst w'. destruct r as [m b]. cbn [fst with_fm w_fm] in *.
    destruct (advance_quiet _ _ _ _ (proj2 (sy_ok _ _ _ Sy)) E) as [[Bb _]|(i & g & A & -> & Hp)]; [unfold bad, has_error in *; cbn in B; congruence|].
    destruct (sync_takes _ _ _ _ Sy A) as (ge & T & Lv). destruct (He i ge T) as (m' & -> & U). destruct T as (Ae & To & Tf & Tp & Tr).
    destruct Lv as [Lh Lvi Lo Lf Lp Ln Lr]. pose proof (ou_range _ _ _ _ _ U) as R. rewrite Lvi, <- Hn in R.
    rewrite (s64_small _ R) in *. destruct (active_some _ _ _ A) as [_ N]. destruct (active_some _ _ _ Ae) as [_ Ne].
    cbn [with_fm w_fm w_slots]. split; [|split; [|reflexivity] ].
    - unfold pst_of. cbn [with_fm w_fm w_table w_arch w_delay w_pool].
      pose proof (vpos_put _ _ _ (set_virtual g (g_virtual g + n)) A) as Vp. cbn [set_virtual g_header g_virtual] in Vp.
      rewrite Vp. rewrite (ou_big _ _ _ _ _ U), Hn. destruct (objects_nth files _ _ _ (sy_objects _ _ _ Sy) Ne) as (g0 & N0 & S0).
      apply (emits_at files l (pst_of w e) i g0 (g_header g) (g_virtual g) (f_disk m') (contents m' (g_name ge))).
      + apply vpos_some. exact A.
      + exact N0.
      + exact Ln.
      + cbn [p_disk]. rewrite <- (st_name _ _ S0). fold (contents (w_fm e) (g_name ge)). rewrite (ou_contents _ _ _ _ _ U), <- Lp. unfold overwritten.
        split; [|split; [|split] ].
        * intros k Hk. apply put_inside. exact Hk.
        * intros k Hk. apply put_outside. exact Hk.
        * intros Hl. apply put_length. exact Hl.
        * intros ->. apply put_nil.
      + rewrite <- (st_name _ _ S0). reflexivity.
      + rewrite <- (st_name _ _ S0). exact (ou_other _ _ _ _ _ U).
    - eapply sync_step; [exact Sy|exact A|exact Ae|constructor; reflexivity|exact (quiet_nth _ _ _ (proj2 (sy_ok _ _ _ Sy)) N)|
        |exact (ou_files _ _ _ _ _ U)|exact (ou_active _ _ _ _ _ U)|exact (ou_exists _ _ _ _ _ U)|].
      + constructor; reflexivity.
      + unfold set_virtual, moved. constructor; cbn [g_header g_virtual g_open g_fail g_pos]; try reflexivity; try assumption; lia.
  Qed.

  (** *** Header size *)
  Lemma header_sync w e h m b r : sync (w_fm w) (w_fm e) -> header_size (w_fm w) h = ROk (m, b) -> has_error (with_fm w m) = false ->
    header_size (w_fm e) h = ROk r ->
    exists f h0 v, vpos (w_fm w) = Some (mkPos f h0 v) /\ 0 <= v - h0 /\
      pst_of (with_fm w m) (with_fm e (fst r)) = at_pos (pst_of w e) (Some (mkPos f h (v - h0 + h))) /\ sync m (fst r).
  Proof.
    intros Sy H B He. destruct (header_quiet _ _ _ _ (proj2 (sy_ok _ _ _ Sy)) H) as (i & g & A & [[Bb _]|(-> & Hp & Hr)]).
    { unfold bad, has_error in *. cbn in B. congruence. }
    destruct (sync_takes _ _ _ _ Sy A) as (ge & (Ae & _) & Lv). destruct Lv as [Lh Lvi Lo Lf Lp Ln Lr].
    unfold header_size in He. rewrite Ae in He. unfold file_seek_physical in He. rewrite Lvi, Lh in He. cbn [set_header g_header] in He.
    destruct (Z.ltb_spec (g_virtual g - g_header g) 0) as [Hx|_]; [lia|]. destruct (in_int64 (g_virtual g - g_header g + h)); cbn [negb] in He; [|discriminate].
    apply rok in He. subst r. cbn [fst]. unfold set_virtual. cbn [g_open set_header]. rewrite Lo. unfold stream_seek.
    cbn [g_fail g_name g_original g_mode g_header0 g_header g_virtual g_open set_header]. rewrite Lf.
    exists i, (g_header g), (g_virtual g). split; [apply vpos_some; exact A|]. split; [exact Hp|]. split.
    - unfold pst_of, at_pos. cbn [with_fm w_fm put_file f_big f_disk w_table w_arch w_delay w_pool p_big p_disk p_table p_arch p_delay p_pending].
      pose proof (vpos_put _ _ _ (set_virtual (set_header g h) (g_virtual g - g_header g + h)) A) as Vp. unfold set_virtual in Vp. cbn [g_header g_virtual set_header] in Vp.
      unfold put_file in Vp |- *. cbn in Vp |- *. rewrite Vp. reflexivity.
    - destruct (active_some _ _ _ A) as [_ N].
      eapply sync_step; [exact Sy|exact A|exact Ae|constructor; reflexivity|exact (quiet_nth _ _ _ (proj2 (sy_ok _ _ _ Sy)) N)|
        |cbn [put_file f_files]; rewrite set_file_twice; reflexivity|reflexivity|auto|constructor; cbn; try reflexivity; try assumption; lia]. constructor; reflexivity.
  Qed.

  (** *** Opening and closing *)
  Lemma objects_length m : objects files m -> List.length (f_files m) = List.length files.
  Proof. unfold objects. induction 1; cbn; congruence. Qed.
  Lemma closed_none mv me : sync mv me -> forall j g, nth_error (f_files (match active me with Some (j, g) => put_file me j (stream_close g) | None => me end)) j = Some g ->
    g_open g = false.
  Proof.
    intros Sy j g. destruct (active me) as [[i x]|] eqn:A.
    - destruct (active_some _ _ _ A) as [Fa N]. cbn [put_file f_files]. rewrite set_file_nth. destruct (Nat.eqb_spec j i) as [->|Hne].
      + rewrite N. intros H. injection H as <-. reflexivity.
      + intros H. apply (sy_closed _ _ _ Sy _ _ H). congruence.
    - intros H. destruct (f_active me) as [k|] eqn:Fa.
      + destruct (Nat.eq_dec k j) as [->|Hne].
        * unfold active in A. rewrite Fa, H in A. discriminate.
        * apply (sy_closed _ _ _ Sy _ _ H). congruence.
      + apply (sy_closed _ _ _ Sy _ _ H). congruence.
  Qed.
  Lemma close_objects m : objects files m -> objects files (match active m with Some (j, g) => put_file m j (stream_close g) | None => m end).
  Proof.
    intros O. destruct (active m) as [[i x]|] eqn:A; [|exact O]. destruct (active_some _ _ _ A) as [_ N].
    eapply objects_put; [exact O|exact N|constructor; reflexivity].
  Qed.
  Lemma close_sync w e : sync (w_fm w) (w_fm e) ->
    pst_of (with_fm w (close_file (w_fm w))) (with_fm e (close_file (w_fm e))) = at_pos (pst_of w e) None /\
    sync (close_file (w_fm w)) (close_file (w_fm e)).
  Proof.
    intros Sy. split.
    - unfold pst_of, at_pos. cbn [with_fm w_fm w_table w_arch w_delay w_pool p_big p_disk p_table p_arch p_delay p_pending].
      assert (V : vpos (close_file (w_fm w)) = None).
      { unfold vpos, close_file. destruct (active (w_fm w)) as [[i g]|] eqn:A; [reflexivity|rewrite A; reflexivity]. }
      rewrite V. unfold close_file. destruct (active (w_fm e)) as [[i g]|]; reflexivity.
    - assert (N : active (close_file (w_fm w)) = None) by (unfold close_file; destruct (active (w_fm w)) as [[i g]|] eqn:A; [reflexivity|exact A]).
      assert (Ne : active (close_file (w_fm e)) = None) by (unfold close_file; destruct (active (w_fm e)) as [[i g]|] eqn:A; [reflexivity|exact A]).
      assert (D : forall m, f_disk (close_file m) = f_disk m) by (intros m; unfold close_file; destruct (active m) as [[i g]|]; reflexivity).
      assert (F : forall m, f_files (close_file m) = f_files (match active m with Some (j, g) => put_file m j (stream_close g) | None => m end))
        by (intros m; unfold close_file; destruct (active m) as [[i g]|]; reflexivity).
      constructor.
      + pose proof (close_active_ok files _ (sy_ok _ _ _ Sy)) as [O Q]. split; unfold objects, quiet in *; rewrite F; assumption.
      + pose proof (close_objects _ (sy_objects _ _ _ Sy)) as O. unfold objects in *. rewrite F. exact O.
      + intros j g Hj _. rewrite F in Hj. exact (closed_none _ _ Sy _ _ Hj).
      + intros n. rewrite !D. apply (sy_exists _ _ _ Sy).
      + rewrite N. rewrite Ne. discriminate.
  Qed.

  Variable writable : nat -> bool.
  Hypothesis headers : Forall (fun g => is_int64 (g_header0 g)) files.
  Lemma open_sync w e i m b : sync (w_fm w) (w_fm e) -> (i < List.length files)%nat ->
    open_file writable (w_fm w) i true = (m, b) -> has_error (with_fm w m) = false ->
    opens files i (pst_of w e) (pst_of (with_fm w m) (with_fm e (fst (open_file writable (w_fm e) i false)))) /\
    sync m (fst (open_file writable (w_fm e) i false)).
  Proof.
    intros Sy Hi H B. unfold open_file in *. set (mv1 := match active (w_fm w) with Some (j, g) => _ | None => _ end) in *.
    set (me1 := match active (w_fm e) with Some (j, g) => _ | None => _ end) in *.
    pose proof (close_active_ok files _ (sy_ok _ _ _ Sy)) as Ov. fold mv1 in Ov. pose proof (close_objects _ (sy_objects _ _ _ Sy)) as Oe. fold me1 in Oe.
    pose proof (closed_none _ _ Sy) as Ce. fold me1 in Ce.
    assert (Dv : f_disk mv1 = f_disk (w_fm w)) by (unfold mv1; destruct (active (w_fm w)) as [[j g]|]; reflexivity).
    assert (De : f_disk me1 = f_disk (w_fm e)) by (unfold me1; destruct (active (w_fm e)) as [[j g]|]; reflexivity).
    assert (Be : f_big me1 = f_big (w_fm e)) by (unfold me1; destruct (active (w_fm e)) as [[j g]|]; reflexivity).
    clearbody mv1 me1. cbn [set_active f_files] in *.
    destruct (nth_error (f_files mv1) i) as [g|] eqn:N.
    2:{ apply nth_error_None in N. pose proof (objects_length _ (proj1 Ov)). lia. }
    destruct (nth_error (f_files me1) i) as [ge|] eqn:Ne.
    2:{ apply nth_error_None in Ne. pose proof (objects_length _ Oe). lia. }
    destruct (objects_nth _ _ _ _ (proj1 Ov) N) as (g0 & N0 & S0). destruct (objects_nth _ _ _ _ Oe Ne) as (g0' & N0' & S0').
    rewrite N0 in N0'. injection N0' as <-. pose proof (Ce _ _ Ne) as Oge. pose proof (quiet_nth _ _ _ (proj2 Ov) N) as Ogv.
    destruct S0 as [Sn So Sm Sh], S0' as [Sn' So' Sm' Sh'].
    assert (Hh : is_int64 (g_header0 g0)) by (apply (proj1 (Forall_forall _ _) headers); exact (nth_error_In _ _ N0)).
    unfold open_check in H. cbn [set_virtual set_header g_mode g_name g_original put_file f_disk set_active] in H.
    destruct (match g_mode g with MOpen => _ | MCreate => _ | MCopy => _ end) eqn:Eok; apply duo in H; destruct H as [<- _]; [|discriminate].
    rewrite Dv in Eok.
    set (ge1 := stream_open (set_virtual (set_header ge (g_header0 ge)) (g_header0 ge))).
    assert (Op : exists d', fst (open_real writable (set_active me1 (Some i)) i ge) = set_disk (put_file (set_active me1 (Some i)) i ge1) d' /\
      (forall n, f_disk me1 n <> None -> d' n <> None) /\
      match g_mode g0 with
       | MOpen => f_disk me1 (g_name g0) <> None /\ forall n, d' n = f_disk me1 n
       | MCreate => d' (g_name g0) = Some [] /\ forall n, n <> g_name g0 -> d' n = f_disk me1 n
       | MCopy => g_original g0 <> g_name g0 /\ f_disk me1 (g_original g0) <> None /\
                  d' (g_name g0) = f_disk me1 (g_original g0) /\ forall n, n <> g_name g0 -> d' n = f_disk me1 n
       end).
    { unfold open_real. cbn [set_virtual set_header g_mode g_name g_original g_open]. rewrite Oge, Sm', Sn', So'. fold (set_header ge (g_header0 ge)).
      fold (set_virtual (set_header ge (g_header0 ge)) (g_header0 ge)). fold ge1. cbn [set_active f_disk]. rewrite Sm, Sn, So in Eok.
      assert (Ex : forall n, exists_file (f_disk (w_fm w)) n = true -> f_disk me1 n <> None).
      { intros n Hn. rewrite De. apply (sy_exists _ _ _ Sy). unfold exists_file in Hn. destruct (f_disk (w_fm w) n); [discriminate|discriminate]. }
      destruct (g_mode g0).
      - apply andb_prop in Eok. destruct Eok as [E1 E2]. specialize (Ex _ E1). unfold exists_file. destruct (f_disk me1 (g_name g0)) as [c|] eqn:Ed; [|congruence].
        rewrite E2. cbn [andb fst]. exists (f_disk me1). repeat split; auto; discriminate.
      - rewrite Eok. cbn [fst]. exists (disk_set (f_disk me1) (g_name g0) []). repeat split.
        + intros n Hn. unfold disk_set. destruct (Nat.eqb n (g_name g0)); [discriminate|exact Hn].
        + unfold disk_set. rewrite Nat.eqb_refl. reflexivity.
        + intros n Hn. unfold disk_set. destruct (Nat.eqb_spec n (g_name g0)); [congruence|reflexivity].
      - apply andb_prop in Eok. destruct Eok as [Eok E4]. apply andb_prop in Eok. destruct Eok as [Eok E3]. apply andb_prop in Eok. destruct Eok as [E1 E2].
        specialize (Ex _ E1). destruct (f_disk me1 (g_original g0)) as [c|] eqn:Ed; [|congruence].
        destruct (Nat.eqb_spec (g_original g0) (g_name g0)) as [He|He]; [discriminate|]. rewrite E4. cbn [negb orb fst].
        exists (disk_set (f_disk me1) (g_name g0) c). repeat split.
        + intros n Hn. unfold disk_set. destruct (Nat.eqb n (g_name g0)); [discriminate|exact Hn].
        + exact He.
        + discriminate.
        + unfold disk_set. rewrite Nat.eqb_refl. reflexivity.
        + intros n Hn. unfold disk_set. destruct (Nat.eqb_spec n (g_name g0)); [congruence|reflexivity]. }
    destruct Op as (d' & -> & Dm & Dp).
    assert (E1 : ge1 = mkFile (g_name ge) (g_original ge) (g_mode ge) (g_header0 ge) (g_header0 ge) (g_header0 ge) true 0 false).
    { unfold ge1, stream_open, set_virtual, set_header. cbn [g_open]. rewrite Oge. reflexivity. }
    clearbody ge1. subst ge1.
    assert (Ae : forall x d, active (set_disk (put_file (set_active me1 (Some i)) i x) d) = Some (i, x)).
    { intros x d. unfold active. cbn [set_disk put_file set_active f_active f_files]. rewrite set_file_nth, Nat.eqb_refl, Ne. reflexivity. }
    assert (Av : forall x, active (put_file (set_active mv1 (Some i)) i x) = Some (i, x)).
    { intros x. unfold active. cbn [put_file set_active f_active f_files]. rewrite set_file_nth, Nat.eqb_refl, N. reflexivity. }
    split.
    - unfold pst_of. cbn [with_fm w_fm w_table w_arch w_delay w_pool]. unfold vpos at 2. cbn [put_file set_active f_files f_active f_big f_disk f_queued f_printed].
      match goal with |- context [active ?x] => change x with (put_file (set_active mv1 (Some i)) i (set_virtual (set_header g (g_header0 g)) (g_header0 g))) end.
      rewrite Av. cbn [set_virtual set_header g_header g_virtual set_disk put_file set_active f_big f_disk]. rewrite Be, Sh.
      apply (opens_file files i (pst_of w e) g0 d' N0). cbn [p_disk pst_of]. rewrite <- De. exact Dp.
    - constructor.
      + eapply put_ok; [exact Ov|exact N|constructor; reflexivity|exact Ogv].
      + eapply (objects_put files (set_active me1 (Some i)) i ge); [exact Oe|exact Ne|constructor; reflexivity].
      + intros j x Hj Hna. cbn [set_disk put_file set_active f_files f_active] in *. rewrite set_file_nth in Hj.
        destruct (Nat.eqb_spec j i) as [->|Hne]; [congruence|]. exact (Ce _ _ Hj).
      + intros n Hn. cbn [set_disk put_file set_active f_disk] in *. apply Dm. rewrite De. apply (sy_exists _ _ _ Sy). rewrite Dv in Hn. exact Hn.
      + match goal with |- context [active ?x] => change x with (put_file (set_active mv1 (Some i)) i (set_virtual (set_header g (g_header0 g)) (g_header0 g))) end.
        rewrite Av. eexists. split; [apply Ae|]. constructor; cbn; try reflexivity; try congruence; try lia.
  Qed.
End Sync.

(** ** The simulation *)

Section Sim.
  Variable files : list gfile.
  Variable writable : nat -> bool.
  Variable own_big : bool.
  Notation sync := (sync files).
  Notation mono := (mono files).
  Notation good := (good files).
  Notation well_formed := (well_formed files).

  (** Units have a size that can be written, file objects exist. *)
  Lemma sees_view w e : sees (w_labels w) (pst_of w e) = view_of w.
  Proof.
    unfold sees, pst_of, view_of, get_virtual, get_physical, get_header, open_number. cbn [p_pos]. unfold vpos.
    destruct (active (w_fm w)) as [[i g]|]; reflexivity.
  Qed.
  Lemma section_step w e : has_error (next_section w) = false ->
    has_arch (pst_of w e) /\ pst_of (next_section w) e = new_section (pst_of w e) /\ w_fm (next_section w) = w_fm w.
  Proof.
    unfold next_section, has_arch, new_section, has_error, pst_of. cbn [p_arch]. destruct (w_arch w) eqn:A; cbn [w_fm w_print with_fm with_delay print f_queued f_printed p_arch].
    - rewrite orb_true_r. discriminate.
    - intros _. cbn. try rewrite A. repeat split; discriminate.
    - intros _. cbn. try rewrite A. repeat split; discriminate.
    - intros _. cbn. try rewrite A. repeat split; discriminate.
  Qed.
  Lemma section_encode w e : sync (w_fm w) (w_fm e) ->
    sync (w_fm w) (w_fm (next_section e)) /\ pst_of w (next_section e) = pst_of w e /\ w_slots (next_section e) = w_slots e.
  Proof.
    intros Sy. unfold next_section. destruct (w_arch e); try (split; [exact Sy|split; reflexivity]).
    split; [|split; reflexivity]. destruct Sy as [A B C D E]. constructor; assumption.
  Qed.
  Lemma good_sync w e : sync (w_fm w) (w_fm e) -> good w.
  Proof. intros Sy. exact (sy_ok _ _ _ Sy). Qed.

  Lemma unit_bytes_length big l : Z.of_nat (List.length (unit_bytes big l)) = units_size l.
  Proof.
    unfold units_size. f_equal. induction l as [|u l IH]; [reflexivity|]. cbn [unit_bytes flat_map map list_sum fold_right]. rewrite app_length, encode_bytes_length.
    unfold list_sum in IH. rewrite <- IH. reflexivity.
  Qed.
  Lemma units_size_const u l : units_size (map (fun v => (u, v)) l) = Z.of_nat (List.length l * u).
  Proof.
    unfold units_size. f_equal. rewrite map_map. cbn [fst]. induction l as [|x l IH]; [reflexivity|]. cbn [map list_sum fold_right List.length Nat.mul].
    unfold list_sum in IH. rewrite IH. reflexivity.
  Qed.
  Lemma forall_const u l : valid_unit u -> Forall (fun x => valid_unit (fst x)) (map (fun v : Z => (u, v)) l).
  Proof. intros V. induction l; cbn; constructor; auto. Qed.

  (** *** Labels *)
  Lemma label_value l v w d' : label_validate l v true w = (d', w, false) -> has_error w = false ->
    match v with
    | Some e => eval e (view_of w) = Some (l_val (w_labels w l))
    | None => l_val (w_labels w l) = get_virtual (w_fm w) /\ l_phys (w_labels w l) = Some (get_physical (w_fm w))
    end.
  Proof.
    unfold label_validate. cbn [negb andb]. destruct v as [e|].
    - destruct (eval e (view_of w)) as [x|].
      + destruct (Z.eqb_spec (l_val (w_labels w l)) x); intros H; [subst; reflexivity|split3 H; discriminate].
      + intros H B. split3 H. assert (E : has_error (w_print w) = has_error w) by (f_equal; assumption). rewrite B in E. unfold has_error in E. cbn in E. rewrite orb_true_r in E. discriminate.
    - destruct (Z.eqb_spec (l_val (w_labels w l)) (get_virtual (w_fm w))) as [E1|E1].
      + destruct (l_phys (w_labels w l)) as [q|] eqn:Ep; [|intros H; split3 H; discriminate].
        destruct (Z.eqb_spec (get_physical (w_fm w)) q) as [E2|E2]; intros H; [|split3 H; discriminate]. intros _. split; [exact E1|congruence].
      + match goal with |- context [if ?c then (?w2, false) else _] => destruct c end; intros H; split3 H; discriminate.
  Qed.
  Lemma label_step l w d w' d' : label_validate l None d w = (d', w', false) -> has_error w' = false -> (d = true -> l_def (w_labels w l) = true) ->
    w' = w /\ forall e, w_labels w l = mkLab true (v_virtual (sees (w_labels w) (pst_of w e))) (Some (v_physical (sees (w_labels w) (pst_of w e)))).
  Proof.
    intros H B F. destruct (label_still _ _ _ _ _ _ H B) as (-> & -> & ->). split; [reflexivity|]. intros e. destruct (label_value _ _ _ _ H B) as [V Ph].
    rewrite sees_view. cbn [view_of v_virtual v_physical]. rewrite <- V, <- Ph, <- (F eq_refl). destruct (w_labels w l); reflexivity.
  Qed.

  (** *** Areas *)
  Lemma area_start_ok size fill position a w s w1 : area_start size fill position a w = ROk (s, w1, true) ->
    (match position with
     | Some e => exists p, eval e (view_of w) = Some p /\ w_seek (next_section w) p = ROk w1 /\ ar_pos s = p
     | None => w1 = w /\ ar_pos s = get_virtual (w_fm w)
     end) /\ eval size (view_of w1) = Some (ar_size s) /\ 0 <= ar_size s /\
    (match fill with Some e => exists b, eval e (view_of w1) = Some b /\ ar_fill s = s8 b | None => True end).
  Proof.
    unfold area_start. intros H. unbind H r E. destruct r as [[a1 w0] ok].
    assert (K : ok = true -> (match position with
     | Some e => exists p, eval e (view_of w) = Some p /\ w_seek (next_section w) p = ROk w0 /\ ar_pos a1 = p
     | None => w0 = w /\ ar_pos a1 = get_virtual (w_fm w) end)).
    { intros ->. destruct position as [e|].
      - destruct (eval e (view_of w)) as [p|]; [|split3 E; discriminate]. unbind E w2 E2. split3 E. subst a1 w2. exists p. auto.
      - split3 E. subst. auto. }
    destruct ok; [|split3 H; discriminate]. specialize (K eq_refl). cbn [negb] in H.
    destruct (eval size (view_of w0)) as [n|] eqn:En; [|split3 H; discriminate]. destruct (Z.ltb_spec n 0); [split3 H; discriminate|].
    destruct fill as [e|].
    - destruct (eval e (view_of w0)) as [b|] eqn:Eb; [|split3 H; discriminate]. split3 H. subst s w1. cbn [ar_pos ar_size ar_fill]. repeat split; auto. exists b. auto.
    - split3 H. subst s w1. cbn [ar_pos ar_size]. repeat split; auto.
  Qed.
  Lemma queue_bad w : has_error (w_queue w) = true. Proof. reflexivity. Qed.
  Lemma area_start_bad size fill position a w s w1 : area_start size fill position a w = ROk (s, w1, false) -> has_error w1 = true.
  Proof.
    unfold area_start. intros H. unbind H r E. destruct r as [[a1 w0] ok].
    assert (K : ok = false -> has_error w0 = true).
    { intros ->. destruct position as [e|]; [|split3 E; discriminate].
      destruct (eval e (view_of w)) as [p|]; [unbind E w2 E2; split3 E; discriminate|]. split3 E. subst. reflexivity. }
    destruct ok; cbn [negb] in H; [|split3 H; subst; auto].
    destruct (eval size (view_of w0)) as [n|]; [|split3 H; subst; reflexivity]. destruct (n <? 0); [split3 H; subst; reflexivity|].
    destruct fill as [e|]; [|split3 H; discriminate]. destruct (eval e (view_of w0)); split3 H; [discriminate|subst; reflexivity].
  Qed.
  Lemma area_finish_ok shared filled old s w r s' w' b : good w -> area_finish shared filled old s w r = ROk (s', w', b) -> has_error w' = false ->
    let content := get_virtual (w_fm w) - ar_pos s in
    content <= ar_size s /\ is_some (active (w_fm w)) = true /\
    (exists w2 x, w' = with_alloc w2 x /\ has_error w2 = false /\ if filled || shared then w_advance w (ar_size s - content) = ROk w2 else w2 = w) /\
    ar_pos s' = ar_pos s /\ ar_size s' = ar_size s /\ ar_content s' = content /\ ar_fill s' = ar_fill s.
  Proof.
    intros G H B content. pose proof (area_finish_keep files _ _ _ _ _ _ _ _ _ H) as M. unfold area_finish in H. fold content in H.
    destruct (Z.ltb_spec (ar_size s) content) as [L|L].
    - exfalso. unbind H w2 E2. pose proof (file_id_keep files w2) as M3. destruct (file_id w2) as [w3 id]. cbn [fst] in M3. split3 H. subst w'.
      assert (M2 : mono (w_queue w) w2) by (destruct (filled || shared); [eapply advance_keep; exact E2|apply rok in E2; subst; apply mono_refl]).
      destruct (mono_queue files w G) as (G1 & _). destruct (M2 G1) as (G2 & _).
      assert (K : has_error w3 = false).
      { revert B. match goal with |- has_error ?x = false -> _ => replace (has_error x) with (has_error w3) by (destruct (_ && _); destruct (ar_size s =? 0); reflexivity) end. auto. }
      pose proof (no_error files _ _ G2 M3 K) as K2. pose proof (no_error files _ _ G1 M2 K2) as K3. discriminate.
    - unbind H w2 E2. unfold file_id in H. split; [exact L|].
      assert (M2 : mono w w2) by (destruct (filled || shared); [eapply advance_keep; exact E2|apply rok in E2; subst; apply mono_refl]).
      assert (Act : is_some (active (w_fm w2)) = true -> is_some (active (w_fm w)) = true).
      { destruct (filled || shared); [|apply rok in E2; subst; auto]. rewrite advance_as_seek in E2.
        destruct (active (w_fm w)) as [[i g]|] eqn:A0; [reflexivity|]. apply rok in E2. subst w2. change (active (w_fm (w_queue w))) with (active (w_fm w)). rewrite A0. auto. }
      destruct (active (w_fm w2)) as [[i g]|] eqn:A.
      + split; [apply Act; reflexivity|]. split3 H. subst s' w'. split; [|cbn; auto].
        assert (K : exists x, (let w0 := if (negb (ar_file old =? Z.of_nat (S i)) || negb (ar_pos old =? ar_pos s) || (ar_size s =? 0)) && negb (ar_size old =? 0)
             then with_alloc w2 (forget_area (w_alloc w2) (ar_file old) (ar_pos old) (ar_size old)) else w2 in
             if ar_size s =? 0 then w0 else with_alloc w0 (set_area (w_alloc w0) (Z.of_nat (S i)) (ar_pos s) (ar_size s) content filled shared)) = with_alloc w2 x).
        { destruct (_ && _); destruct (ar_size s =? 0); eexists; try reflexivity. instantiate (1 := w_alloc w2). destruct w2; reflexivity. }
        destruct K as [x K]. exists w2, x. split; [exact K|]. split; [|destruct (filled || shared); [exact E2|apply rok in E2; congruence] ].
        cbv zeta in K. rewrite K in B. exact B.
      + exfalso. split3 H. subst w'. revert B. match goal with |- has_error ?x = false -> _ => replace (has_error x) with true by (destruct (_ && _); destruct (ar_size s =? 0); reflexivity) end. discriminate.
  Qed.

  (** *** Pools *)
  Lemma find_value_nth l v : forall i k, find_value l v i = Some k -> (i <= k)%nat /\ nth_error l (k - i) = Some v.
  Proof.
    induction l as [|x l IH]; intros i k H; cbn in H; [discriminate|]. destruct (Z.eqb_spec x v) as [->|Hx].
    - injection H as <-. split; [lia|]. rewrite Nat.sub_diag. reflexivity.
    - apply IH in H. destruct H as [H1 H2]. split; [lia|]. replace (k - i)%nat with (S (k - S i)) by lia. exact H2.
  Qed.
  Lemma set_pool_ok w e x : has_error (set_pool_address w e x) = false ->
    pool_reach (pe_thumb e) (pool_distance (pe_thumb e) (pe_pos e) x) = true /\
    set_pool_address w e x = with_pool w (w_pool w) (fun k => if Nat.eqb k (pe_id e) then x else w_slots w k).
  Proof. unfold set_pool_address. destruct (pool_reach _ _); [auto|discriminate]. Qed.
  Lemma pool_loop_ok passes position l : forall values w values' w', good w -> NoDup (map pe_id l) ->
    pool_loop passes position l values w = (values', w') -> has_error w' = false ->
    (exists extra, values' = values ++ extra) /\ (exists s, w' = with_pool w (w_pool w) s) /\
    (forall e, In e l -> exists k, nth_error values' k = Some (pe_value e) /\ w_slots w' (pe_id e) = position + 4 * Z.of_nat k /\
       pool_reach (pe_thumb e) (pool_distance (pe_thumb e) (pe_pos e) (w_slots w' (pe_id e))) = true) /\
    (forall k, (List.length values <= k < List.length values')%nat -> exists e, In e l /\ w_slots w' (pe_id e) = position + 4 * Z.of_nat k).
  Proof.
    induction l as [|e l IH]; intros values w values' w' G N H B; cbn [pool_loop map] in *.
    - apply duo in H. destruct H as [<- <-]. split; [exists []; rewrite app_nil_r; reflexivity|]. split; [exists (w_slots w); destruct w; reflexivity|].
      split; [intros e []|intros k Hk; lia].
    - set (index := if passes <? 10 then _ else _) in H. inversion N as [|? ? N1 N2]. subst.
      set (values1 := if Nat.eqb index (List.length values) then _ else _) in H.
      set (w1 := set_pool_address w e (position + Z.of_nat index * 4)) in H.
      assert (B1 : has_error w1 = false).
      { pose proof (pool_loop_keep files passes position l values1 w1) as M. rewrite H in M. cbn [snd] in M. apply (no_error files w1 w'); [|exact M|exact B].
        apply (set_pool_keep files w e _ G). }
      destruct (set_pool_ok _ _ _ B1) as [R Ew]. fold w1 in Ew.
      assert (G1 : good w1) by (rewrite Ew; exact G).
      destruct (IH _ _ _ _ G1 N2 H B) as ((extra & E1) & (s & E2) & E3 & E4).
      assert (Sl : w_slots w' (pe_id e) = position + 4 * Z.of_nat index).
      { pose proof (pool_loop_slots passes position l values1 w1 (pe_id e) N1) as K. rewrite H in K. cbn [snd] in K. rewrite K, Ew. cbn [with_pool w_slots].
        rewrite Nat.eqb_refl. lia. }
      assert (Ni : nth_error values1 index = Some (pe_value e) /\ exists x, values1 = values ++ x /\ (List.length values1 <= S index \/ x = [])%nat).
      { unfold values1. destruct (Nat.eqb_spec index (List.length values)) as [Hi|Hi].
        - rewrite Hi, nth_error_app2, Nat.sub_diag by lia. split; [reflexivity|]. exists [pe_value e]. split; [reflexivity|]. left. rewrite app_length. cbn. lia.
        - split; [|exists []; rewrite app_nil_r; auto]. unfold index in *. destruct (passes <? 10); [|congruence].
          destruct (find_value values (pe_value e) 0) as [k|] eqn:Ef; [|congruence]. apply find_value_nth in Ef. rewrite Nat.sub_0_r in Ef. apply Ef. }
      destruct Ni as (Ni & x & Ex & Lx).
      split; [exists (x ++ extra); rewrite E1, Ex, app_assoc; reflexivity|]. split; [exists s; rewrite E2, Ew; reflexivity|]. split.
      + intros e0 [<-|He]; [|apply E3; exact He]. exists index. split; [rewrite E1, nth_error_app1; [exact Ni|]|].
        * apply nth_error_Some. congruence.
        * split; [exact Sl|]. rewrite Sl. replace (position + 4 * Z.of_nat index) with (position + Z.of_nat index * 4) by lia. exact R.
      + intros k Hk. destruct (Nat.lt_ge_cases k (List.length values1)) as [Lt|Ge].
        * exists e. split; [left; reflexivity|]. rewrite Sl. destruct Lx as [Lx|Lx].
          -- assert (Hi : index = List.length values).
             { destruct (Nat.eq_dec index (List.length values)); [assumption|]. unfold values1 in Lt. destruct (Nat.eqb_spec index (List.length values)); [contradiction|]. lia. }
             replace k with index by lia. reflexivity.
          -- rewrite Ex, Lx, app_nil_r in Lt. lia.
        * destruct (E4 k ltac:(lia)) as (e0 & He & Hs). exists e0. split; [right; exact He|exact Hs].
  Qed.
  Lemma s32_inner x y : s32 (s32 x - y) = s32 (x - y).
  Proof. unfold s32. destruct (Z.ltb_spec (x mod 4294967296) 2147483648); repeat (match goal with |- context [if ?c then _ else _] => destruct c eqn:? end); lia. Qed.
  Lemma distance_literal thumb pos slot : pool_distance thumb pos slot = literal_distance thumb pos slot.
  Proof. unfold pool_distance, literal_distance. destruct thumb; [apply s32_inner|reflexivity]. Qed.
  Lemma reach_reaches thumb d : pool_reach thumb d = true -> reaches thumb d.
  Proof. unfold pool_reach, reaches. destruct thumb; lia. Qed.

  (** *** Everything *)
  Variable headers : Forall (fun g => is_int64 (g_header0 g)) files.
  Lemma u8_s8 b : u8 (s8 b) = u8 b.
  Proof. unfold u8, s8. destruct (Z.ltb_spec (b mod 256) 128); lia. Qed.
  Lemma eval_range e v x : eval e v = Some x -> is_int64 x.
  Proof. unfold eval. destruct (e v); [|discriminate]. intros H. injection H as <-. apply s64_range. Qed.
  Lemma advance_value w i g n : files_ok files (w_fm w) -> active (w_fm w) = Some (i, g) -> in_int64 (s64 (g_virtual g + n) - g_header g) = true -> 0 <= s64 (g_virtual g + n) - g_header g ->
    w_advance w n = ROk (with_fm w (put_file (w_fm w) i (set_virtual g (s64 (g_virtual g + n))))).
  Proof.
    intros [_ Q] A I P. unfold w_advance, advance. rewrite A. unfold file_seek_virtual. rewrite I. cbn [negb].
    destruct (Z.ltb_spec (s64 (g_virtual g + n) - g_header g) 0); [lia|]. cbn [rbind fst]. cbn [set_virtual g_open].
    rewrite (quiet_nth _ _ _ Q (proj2 (active_some _ _ _ A))). reflexivity.
  Qed.
  Lemma usage_positive s k : 0 <= sub_area_usage s k.
  Proof. unfold sub_area_usage. destruct (Z.leb_spec (max_extent (a_subs s) k) (area_usage s k)); lia. Qed.

  Notation holds_sim c := (forall passes nofile a w a' w' e e' P,
    sync (w_fm w) (w_fm e) -> well_formed c -> flags (w_labels w) c a ->
    validate writable nofile passes c a w = ROk (a', w', false) -> has_error w' = false -> encode writable own_big c a' e = ROk e' ->
    w_slots e = P -> ctx P w (ids c) w' ->
    place files (w_labels w) P c (pst_of w e) (pst_of w' e') /\ sync (w_fm w') (w_fm e') /\ w_slots e' = P).

  Lemma power_two n : is_power_of_two n = true -> exists k, 0 <= k /\ n = 2 ^ k.
  Proof.
    unfold is_power_of_two. destruct (Z.eqb_spec n 0) as [Z0|Z0]; [discriminate|]. intros H. apply Z.eqb_eq in H.
    destruct (Z.ltb_spec n 0) as [N|N].
    - assert (K : Z.land n (n - 1) < 0) by (apply Z.land_neg; lia). lia.
    - exists (Z.log2 n). split; [apply Z.log2_nonneg|]. pose proof (Z.log2_spec n ltac:(lia)) as [L1 L2]. pose proof (Z.log2_nonneg n) as L0.
      destruct (Z.eq_dec n (2 ^ Z.log2 n)) as [E|E]; [exact E|exfalso].
      assert (B1 : Z.testbit n (Z.log2 n) = true) by (apply Z.bit_log2; lia).
      assert (B2 : Z.log2 (n - 1) = Z.log2 n) by (apply Z.log2_unique; lia).
      assert (P2 : 0 < 2 ^ Z.log2 n) by (apply Z.pow_pos_nonneg; lia).
      assert (B3 : Z.testbit (n - 1) (Z.log2 n) = true) by (rewrite <- B2; apply Z.bit_log2; lia).
      assert (B4 : Z.testbit (Z.land n (n - 1)) (Z.log2 n) = true) by (rewrite Z.land_spec, B1, B3; reflexivity).
      rewrite H, Z.bits_0 in B4. discriminate.
  Qed.
  Lemma sim_align m value fill : holds_sim (CAlign m value fill).
  Proof.
    intros passes nofile a w a' w' e e' P Sy Wf Fl H B He Es Cx. cbn [validate encode] in *. unfold align_validate in H.
    destruct (eval value (view_of w)) as [n|] eqn:En; [|split3 H; subst; discriminate].
    destruct (_ && (n =? int64_min)); [discriminate|].
    destruct ((match m with Fill => false | _ => true end) && negb (is_power_of_two n)) eqn:Ep; [split3 H; subst; discriminate|].
    set (size := match m with AlignVirtual => _ | AlignPhysical => _ | Fill => _ end) in H.
    destruct (match fill with None => Some 0 | Some e0 => _ end) as [byte|] eqn:Eb; [|split3 H; subst; unfold has_error in B; cbn in B; rewrite orb_true_r in B; discriminate].
    unbind H w1 E1. split3 H. subst a' w1.
    pose proof (no_error files _ _ (proj1 (mono_section files w (good_sync _ _ Sy))) (advance_keep files _ _ _ E1) B) as Bs.
    destruct (section_step w e Bs) as (Ha & Hs & Hf). unfold align_encode in He. cbn [al_size al_byte] in He.
    destruct (Z.ltb_spec size 0) as [Hz|Hz]; [discriminate|].
    assert (Gb : exists b, given (w_labels w) fill (pst_of w e) 0 b /\ u8 byte = u8 b).
    { unfold given. destruct fill as [e0|].
      - destruct (eval e0 (view_of w)) as [b|] eqn:Ebe; [|discriminate]. injection Eb as <-. exists b. rewrite sees_view. split; [exact Ebe|apply u8_s8].
      - injection Eb as <-. exists 0. auto. }
    destruct Gb as (b & Gb & Eu). rewrite Eu in He.
    assert (K : emits files (repeat (u8 b) (Z.to_nat size)) (pst_of (next_section w) e) (pst_of w' e') /\ sync (w_fm w') (w_fm e') /\ w_slots e' = w_slots e).
    { apply (emit_sync files (next_section w) e size); [rewrite Hf; exact Sy|exact E1|exact B| |rewrite repeat_length; lia].
      intros i ge T. eapply fill_loop_out; [exact T| | |exact He]; lia. }
    destruct K as (K1 & K2 & K3). split; [|split; [exact K2|congruence] ].
    apply (pl_align files (w_labels w) P m value n fill b size (pst_of w e)); try assumption.
    - rewrite sees_view. exact En.
    - rewrite sees_view. reflexivity.
    - intros Hm. apply power_two. destruct m; [| |congruence]; destruct (is_power_of_two n); auto; discriminate.
    - rewrite <- Hs. exact K1.
  Qed.
  Lemma sim_incbin content start size : holds_sim (CIncbin content start size).
  Proof.
    intros passes nofile a w a' w' e e' P Sy Wf Fl H B He Es Cx. cbn [validate encode] in *. unfold incbin_validate in H.
    set (total := Z.of_nat (List.length content)) in *.
    destruct (match start with None => Some 0 | Some e0 => _ end) as [s|] eqn:Est; [|split3 H; subst; discriminate].
    destruct (_ && (total <? s)) eqn:Ets; [split3 H; subst; discriminate|].
    destruct (match size with None => Some (total - s) | Some e0 => _ end) as [n|] eqn:En; [|split3 H; subst; discriminate].
    destruct (negb _); [discriminate|]. set (n' := if total <? s + n then total - s else n) in H.
    unbind H w1 E1. split3 H. subst a' w1.
    pose proof (no_error files _ _ (proj1 (mono_section files w (good_sync _ _ Sy))) (advance_keep files _ _ _ E1) B) as Bs.
    destruct (section_step w e Bs) as (Ha & Hs & Hf). unfold incbin_encode in He. cbn [fst snd] in He.
    assert (Hn' : n' = Z.min n (total - s)) by (unfold n'; destruct (Z.ltb_spec total (s + n)); lia).
    assert (Gs : given (w_labels w) start (pst_of w e) 0 s /\ given (w_labels w) size (pst_of w e) (total - s) n).
    { unfold given. rewrite sees_view. split; [destruct start|destruct size]; congruence. }
    destruct Gs as [Gs Gn].
    assert (K : forall bytes, Z.of_nat (List.length bytes) = n' ->
      (forall i ge, takes (w_fm e) i ge -> exists m', e' = with_fm e m' /\ outp i ge (w_fm e) m' bytes) ->
      emits files bytes (new_section (pst_of w e)) (pst_of w' e') /\ sync (w_fm w') (w_fm e') /\ w_slots e' = w_slots e).
    { intros bytes Hl Ho. rewrite <- Hs. apply (emit_sync files (next_section w) e n'); [rewrite Hf; exact Sy|exact E1|exact B|exact Ho|lia]. }
    destruct (Z.eqb_spec n' 0) as [Hz|Hz].
    - apply rok in He. subst e'. destruct (K []) as (K1 & K2 & K3); [cbn; lia|intros i ge T; exists (w_fm e); split; [destruct e; reflexivity|apply out_nil; exact T]|].
      split; [|split; [exact K2|congruence] ]. apply (pl_incbin files (w_labels w) P content start size s n [] (pst_of w e)); try assumption; [cbn; lia|auto].
    - destruct (Z.ltb_spec s 0) as [Hs0|Hs0]; [discriminate|]. destruct (Z.ltb_spec n' 0) as [Hn0|Hn0]; [discriminate|]. cbn [orb] in He.
      set (bytes := firstn (Z.to_nat n') (skipn (Z.to_nat s) content)) in He.
      assert (Hl : Z.of_nat (List.length bytes) = n').
      { unfold bytes. rewrite firstn_length, skipn_length. clear - Hn' Hs0 Hn0 Hz. subst total. lia. }
      destruct (K bytes Hl) as (K1 & K2 & K3); [intros i ge T; eapply w_write_out; eassumption|].
      split; [|split; [exact K2|congruence] ]. apply (pl_incbin files (w_labels w) P content start size s n bytes (pst_of w e)); try assumption; [lia|].
      right. exists (firstn (Z.to_nat s) content), (skipn (Z.to_nat n') (skipn (Z.to_nat s) content)). split.
      + rewrite firstn_length. clear - Hn' Hs0 Hn0 Hz. subst total. lia.
      + unfold bytes. rewrite firstn_skipn, firstn_skipn. reflexivity.
  Qed.
  Lemma emits_pending l p x q : emits files l (pending p x) q -> exists q', emits files l p q' /\ q = pending q' x.
  Proof.
    remember (pending p x) as p0 eqn:E. intros Em. destruct Em as [p0 f g0 h v d' new V1 V2 V3 V4 V5 V6]. subst p0.
    exists (on_disk (at_pos p (Some (mkPos f h (v + Z.of_nat (List.length l))))) d'). split; [|reflexivity].
    eapply emits_at; eassumption.
  Qed.
  Lemma sim_pool : holds_sim CPool.
  Proof.
    intros passes nofile a w a' w' e e' P Sy Wf Fl H B He Es Cx. cbn [validate encode ids] in *. unfold pool_validate in H.
    unfold file_id in H. destruct (active (w_fm w)) as [[i g]|] eqn:A.
    2:{ exfalso. revert H B.
      set (w2 := if fst a =? -1 then w_queue w else _). intros H B.
      assert (G1 : good (w_queue w)) by (apply (mono_queue files w (good_sync _ _ Sy))).
      assert (M2 : mono (w_queue w) w2) by (unfold w2; destruct (fst a =? -1); [apply mono_refl|apply mono_same; reflexivity]).
      pose proof (pool_loop_keep files passes (get_virtual (w_fm w2)) (w_pool w2) [] w2) as M3.
      destruct (pool_loop passes (get_virtual (w_fm w2)) (w_pool w2) [] w2) as [values w3]. cbn [snd] in M3.
      unbind H w4 E4. split3 H. subst. assert (M4 : mono (w_queue w) w4).
      { eapply mono_trans; [exact M2|]. eapply mono_trans; [exact M3|].
        eapply mono_trans; [apply (mono_same files w3 (with_pool w3 [] (w_slots w3))); reflexivity|eapply advance_keep; exact E4]. }
      pose proof (no_error files _ _ G1 M4 B). discriminate. }
    set (w2 := if fst a =? -1 then w else _) in H.
    assert (Eq2 : w_fm w2 = w_fm w /\ w_pool w2 = w_pool w /\ w_labels w2 = w_labels w /\ w_slots w2 = w_slots w /\
      w_table w2 = w_table w /\ w_arch w2 = w_arch w /\ w_delay w2 = w_delay w) by (unfold w2; destruct (fst a =? -1); repeat split; reflexivity).
    destruct Eq2 as (F2 & P2 & L2 & S2 & T2 & A2 & D2). rewrite F2, P2 in H.
    destruct (pool_loop passes (get_virtual (w_fm w)) (w_pool w) [] w2) as [values w3] eqn:Ep.
    unbind H w4 E4. split3 H. subst a'. subst w'.
    assert (G2 : good w2) by (unfold AsmProofs.good; rewrite F2; exact (good_sync _ _ Sy)).
    assert (B4 : has_error w4 = false) by exact B.
    pose proof (pool_loop_keep files passes (get_virtual (w_fm w)) (w_pool w) [] w2 G2) as M3. rewrite Ep in M3. cbn [snd] in M3. destruct M3 as (G3 & _).
    assert (B3 : has_error w3 = false).
    { exact (no_error files (with_pool w3 [] (w_slots w3)) w4 G3 (advance_keep files _ _ _ E4) B4). }
    destruct Cx as [Cn Ca]. rewrite app_nil_r in Cn, Ca.
    destruct (pool_loop_ok passes (get_virtual (w_fm w)) (w_pool w) [] w2 values w3 G2 Cn Ep B3) as (_ & (s & E3) & K1 & K2).
    assert (Sl : forall x, In x (w_pool w) -> P (pe_id x) = w_slots w3 (pe_id x)).
    { intros x Hx. rewrite Ca.
      - destruct (advance_pkeep _ _ _ E4) as [_ X]. cbn [with_alloc w_slots]. rewrite X. reflexivity.
      - apply in_map. exact Hx.
      - destruct (advance_pkeep _ _ _ E4) as [X _]. unfold pids. cbn [with_alloc w_pool]. rewrite X. intros []. }
    assert (Gv : get_virtual (w_fm w) = g_virtual g) by (unfold get_virtual; rewrite A; reflexivity). rewrite Gv in *.
    assert (Em : emits files (unit_bytes (f_big (w_fm e)) (map (fun x => (4%nat, x)) values)) (pst_of (with_pool w3 [] (w_slots w3)) e) (pst_of w4 e') /\ sync (w_fm w4) (w_fm e') /\ w_slots e' = w_slots e).
    { apply (emit_sync files (with_pool w3 [] (w_slots w3)) e (Z.of_nat (List.length values) * 4)); [subst w3; cbn; rewrite F2; exact Sy|exact E4|exact B4| |].
      - intros j ge T. eapply w_units_out; [exact T|apply forall_const; unfold valid_unit; auto|exact He].
      - rewrite unit_bytes_length, units_size_const. lia. }
    destruct Em as (Em & Sy4 & Sl4). split; [|split; [exact Sy4|congruence] ].
    assert (E5 : pst_of (with_pool w3 [] (w_slots w3)) e = pending (pst_of w e) []).
    { subst w3. unfold pst_of, pending. cbn. rewrite F2, T2, A2, D2. reflexivity. }
    rewrite E5 in Em.
    assert (E6 : exists q, emits files (unit_bytes (f_big (w_fm e)) (map (fun x => (4%nat, x)) values)) (pst_of w e) q /\ pst_of w4 e' = pending q []).
    { exact (emits_pending _ _ _ _ Em). }
    destruct E6 as (q & Em' & Eq). change (pst_of (with_alloc w4 _) e') with (pst_of w4 e'). rewrite Eq.
    apply (pl_pool files (w_labels w) P values i (g_header g) (g_virtual g) (pst_of w e) q).
    - apply vpos_some. exact A.
    - intros l Hl. destruct (K1 l Hl) as (k & V1 & V2 & V3). exists k. split; [exact V1|]. split; [rewrite Sl by exact Hl; exact V2|].
      rewrite Sl by exact Hl. rewrite <- distance_literal. apply reach_reaches. exact V3.
    - intros k Hk. destruct (K2 k) as (l & V1 & V2); [cbn; lia|]. exists l. split; [exact V1|]. rewrite Sl by exact V1. exact V2.
    - exact Em'.
  Qed.
  (** The end of an area *)
  Lemma moves_goes n p p' f h v : p_pos p = Some (mkPos f h v) -> is_int64 (v + n) -> moves n p p' -> goes (v + n) p p'.
  Proof. intros Hp R M. destruct M as [p p' f' h' v' Hp' G]. rewrite Hp in Hp'. injection Hp' as <- <- <-. rewrite s64_small in G by exact R. exact G. Qed.
  Lemma area_end shared (fill : option expr) old s w r s' w' b e e' : sync (w_fm w) (w_fm e) ->
    area_finish shared (is_some (fill : option expr)) old s w r = ROk (s', w', b) -> has_error w' = false ->
    area_encode shared (is_some (fill : option expr)) s' e = ROk e' -> forall byte, (fill <> None -> ar_fill s = s8 byte) ->
    exists f h v, vpos (w_fm w) = Some (mkPos f h v) /\ v - ar_pos s <= ar_size s /\
    (match fill with
     | Some _ => exists used p3, 0 <= used <= ar_size s - (v - ar_pos s) /\ (used = 0 /\ p3 = pst_of w e \/ goes (v + used) (pst_of w e) p3) /\
                 emits files (repeat (u8 byte) (Z.to_nat (ar_size s - (v - ar_pos s) - used))) p3 (pst_of w' e')
     | None => if shared then goes (ar_pos s + ar_size s) (pst_of w e) (pst_of w' e') else pst_of w' e' = pst_of w e
     end) /\ sync (w_fm w') (w_fm e') /\ w_slots e' = w_slots e.
  Proof.
    intros Sy H B He byte Hb. destruct (area_finish_ok _ _ _ _ _ _ _ _ _ (good_sync _ _ Sy) H B) as (Hc & Ha & (w2 & x & Ew & B2 & Hw) & Ep & Es & Ec & Ef).
    destruct (active (w_fm w)) as [[i g]|] eqn:A; [|discriminate]. assert (Gv : get_virtual (w_fm w) = g_virtual g) by (unfold get_virtual; rewrite A; reflexivity).
    rewrite Gv in *. exists i, (g_header g), (g_virtual g). split; [apply vpos_some; exact A|]. split; [exact Hc|]. subst w'.
    change (pst_of (with_alloc w2 x) e') with (pst_of w2 e'). change (w_fm (with_alloc w2 x)) with (w_fm w2).
    unfold area_encode in He. rewrite Ep, Es, Ec, Ef in He. destruct (in_int64 (ar_pos s + ar_size s)) eqn:Ri; [|discriminate]. cbn [negb] in He. apply in_int64_iff in Ri.
    destruct fill as [ef|]; cbn [is_some orb] in *.
    - specialize (Hb ltac:(discriminate)). rewrite Hb, u8_s8 in He. set (k := (ar_file s', ar_pos s)) in He. pose proof (usage_positive (w_alloc e) k) as Up.
      set (used := sub_area_usage (w_alloc e) k) in *. clearbody used.
      set (e1 := with_alloc e (sub_area_touch (w_alloc e) k)) in He. unbind He e2 E2.
      destruct (Z.ltb_spec (ar_size s - (g_virtual g - ar_pos s) - used) 0) as [Hn|Hn]; [discriminate|].
      set (rest := ar_size s - (g_virtual g - ar_pos s)) in *.
      destruct (sync_takes _ _ _ _ _ Sy A) as (ge & T & Lv). pose proof (lv_range _ _ Lv) as Lr. pose proof (lv_phys _ _ Lv) as Lp.
      assert (R1 : is_int64 (g_virtual g + used)) by (unfold is_int64, int64_min, int64_max in *; subst rest; lia).
      assert (R2 : is_int64 (g_virtual g + rest)) by (unfold is_int64, int64_min, int64_max in *; subst rest; lia).
      assert (K : exists w3, (used = 0 /\ w3 = w \/ w_advance w used = ROk w3 /\ has_error w3 = false) /\ sync (w_fm w3) (w_fm e2) /\ w_slots e2 = w_slots e /\
                (used = 0 /\ pst_of w3 e2 = pst_of w e \/ goes (g_virtual g + used) (pst_of w e) (pst_of w3 e2)) /\ w_advance w3 (rest - used) = ROk w2).
      { destruct (Z.eqb_spec used 0) as [U0|U0].
        - apply rok in E2. subst e2. exists w. split; [auto|]. split; [exact Sy|]. split; [reflexivity|]. split; [left; split; [exact U0|reflexivity]|].
          rewrite U0, Z.sub_0_r. exact Hw.
        - pose proof (s64_small _ R1) as S1. pose proof (s64_small _ R2) as S2.
          assert (I1 : in_int64 (g_virtual g + used - g_header g) = true).
          { rewrite advance_as_seek in E2. change (active (w_fm e1)) with (active (w_fm e)) in E2. rewrite (proj1 T) in E2.
            unfold w_seek in E2. unbind E2 q Eqq. unfold seek_virtual in Eqq. change (active (w_fm e1)) with (active (w_fm e)) in Eqq. rewrite (proj1 T) in Eqq.
            unfold file_seek_virtual in Eqq. rewrite (lv_virtual _ _ Lv), (lv_header _ _ Lv), S1 in Eqq.
            destruct (in_int64 (g_virtual g + used - g_header g)); [reflexivity|discriminate]. }
          assert (E3 : w_advance w used = ROk (with_fm w (put_file (w_fm w) i (set_virtual g (g_virtual g + used))))).
          { rewrite <- S1. apply advance_value; [exact (sy_ok _ _ _ Sy)|exact A|rewrite S1; exact I1|rewrite S1; lia]. }
          set (w3 := with_fm w (put_file (w_fm w) i (set_virtual g (g_virtual g + used)))) in *.
          assert (B3 : has_error w3 = false).
          { assert (Bw : has_error w = false) by (eapply (no_error files w w2); [exact (good_sync _ _ Sy)|eapply advance_keep; exact Hw|exact B2]). exact Bw. }
          assert (Sy1 : sync (w_fm w) (w_fm e1)) by exact Sy.
          destruct (advance_sync files _ _ _ _ _ Sy1 E3 B3 E2) as (M & Sy3 & Sl3). exists w3. split; [auto|]. split; [exact Sy3|]. split; [exact Sl3|]. split; [right; exact (moves_goes used (pst_of w e) _ _ _ _ (vpos_some _ _ _ A) R1 M)|].
          assert (Ep2 : w2 = with_fm w (put_file (w_fm w) i (set_virtual g (g_virtual g + rest))) /\ in_int64 (g_virtual g + rest - g_header g) = true).
          { pose proof Hw as Hw'. unfold w_advance, advance in Hw'. unbind Hw' q Eqq. rewrite A in Eqq. unfold file_seek_virtual in Eqq. rewrite S2 in Eqq.
            destruct (in_int64 (g_virtual g + rest - g_header g)) eqn:I2; [|discriminate]. split; [|reflexivity].
            destruct (Z.ltb_spec (g_virtual g + rest - g_header g) 0) as [X|X]; [clear - X Lp Hn Up; lia|].
            assert (V : w_advance w rest = ROk (with_fm w (put_file (w_fm w) i (set_virtual g (s64 (g_virtual g + rest)))))).
            { apply advance_value; [exact (sy_ok _ _ _ Sy)|exact A|rewrite S2; exact I2|rewrite S2; lia]. }
            rewrite S2, Hw in V. congruence. }
          destruct Ep2 as [Ep2 I2].
          assert (A3 : active (w_fm w3) = Some (i, set_virtual g (g_virtual g + used))) by (apply (active_put _ _ _ _ A)).
          assert (Ev : s64 (g_virtual (set_virtual g (g_virtual g + used)) + (rest - used)) = g_virtual g + rest).
          { cbn [set_virtual g_virtual]. replace (g_virtual g + used + (rest - used)) with (g_virtual g + rest) by lia. exact S2. }
          rewrite (advance_value w3 i (set_virtual g (g_virtual g + used)) (rest - used)); [|exact (sy_ok _ _ _ Sy3)|exact A3|rewrite Ev; exact I2|rewrite Ev; cbn [set_virtual g_header]; clear - Lp Hn Up; lia].
          rewrite Ev, Ep2. f_equal. unfold w3, with_fm, put_file, set_virtual. cbn. rewrite set_file_twice. reflexivity. }
      destruct K as (w3 & K0 & Sy3 & Sl3 & Kp & Kw).
      assert (Em : emits files (repeat (u8 byte) (Z.to_nat (rest - used))) (pst_of w3 e2) (pst_of w2 e') /\ sync (w_fm w2) (w_fm e') /\ w_slots e' = w_slots e2).
      { apply (emit_sync files w3 e2 (rest - used)); [exact Sy3|exact Kw|exact B2| |rewrite repeat_length; lia].
        intros j gj Tj. eapply area_loop_out; [exact Tj|exact Hn|exact He]. }
      destruct Em as (Em & Sy' & Sl'). split; [|split; [exact Sy'|congruence] ]. exists used, (pst_of w3 e2). split; [lia|]. split; [exact Kp|exact Em].
    - destruct shared.
      + destruct (advance_sync files _ _ _ _ _ Sy Hw B2 He) as (M & Sy' & Sl'). split; [|auto].
        replace (ar_pos s + ar_size s) with (g_virtual g + (ar_size s - (g_virtual g - ar_pos s))) by lia.
        eapply (moves_goes _ (pst_of w e)); [exact (vpos_some _ _ _ A)| |exact M]. replace (g_virtual g + (ar_size s - (g_virtual g - ar_pos s))) with (ar_pos s + ar_size s) by lia. exact Ri.
      + apply rok in He. subst e' w2. auto.
  Qed.

  Lemma sync_nonneg w me : sync (w_fm w) me -> nonneg w.
  Proof.
    intros Sy. unfold nonneg. destruct (active (w_fm w)) as [[i g]|] eqn:A; [|exact I]. destruct (sync_takes _ _ _ _ _ Sy A) as (ge & _ & Lv). pose proof (lv_phys _ _ Lv). lia.
  Qed.
  Lemma sim_main c : holds_sim c.
  Proof.
    induction c; intros passes nofile x w x' w' en en' P Sy Wf Fl H B He Es Cx; cbn [validate encode ann ids AsmSpec.well_formed flags] in *.
    - split3 H. subst. apply rok in He. subst. split; [constructor|auto].
    - unbind H r1 E1. destruct r1 as [[a1 w1] b1]. unbind H r2 E2. destruct r2 as [[a2 w2] b2]. split3 H. subst x' w2.
      destruct b1; [discriminate|]. destruct b2; [discriminate|]. unbind He e1 Ee1. cbn [fst snd] in Ee1, He.
      pose proof (good_sync _ _ Sy) as G. pose proof (validate_keep files _ _ _ _ _ _ _ _ _ E1) as M1. destruct (M1 G) as (G1 & _).
      pose proof (no_error files _ _ G1 (validate_keep files _ _ _ _ _ _ _ _ _ E2) B) as B1.
      pose proof (validate_still files _ _ _ _ _ _ _ _ (proj1 Wf) G (sync_nonneg _ _ Sy) (proj1 Fl) E1 B1) as Lb.
      destruct (ctx_seq _ _ _ _ _ _ (validate_pool _ _ _ _ _ _ _ _ _ E1) (validate_pool _ _ _ _ _ _ _ _ _ E2) Cx) as [C1 C2].
      destruct Wf as [Wf1 Wf2]. destruct Fl as [Fl1 Fl2].
      destruct (IHc1 _ _ _ _ _ _ _ _ _ Sy Wf1 Fl1 E1 B1 Ee1 Es C1) as (P1 & Sy1 & S1).
      rewrite <- Lb in Fl2. destruct (IHc2 _ _ _ _ _ _ _ _ _ Sy1 Wf2 Fl2 E2 B He S1 C2) as (P2 & Sy2 & S2). rewrite Lb in P2.
      split; [|auto]. eapply pl_seq; eassumption.
    - apply rok in H. apply rok in He. subst en'. destruct value as [e|].
      + destruct (label_still _ _ _ _ _ _ H B) as (-> & -> & ->). pose proof (label_value _ _ _ _ H B) as V. cbv beta iota in V.
        split; [|auto]. apply (pl_value files (w_labels w) P l e (l_val (w_labels w l))); [auto|reflexivity|rewrite sees_view; exact V].
      + destruct (label_step _ _ _ _ _ H B Fl) as [-> V]. split; [|auto]. apply pl_label. apply V.
    - match type of H with context [label_validate ?p ?q ?r ?s] => destruct (label_validate p q r s) as [[d w1] b1] eqn:E end.
      unbind H r2 E2. destruct r2 as [[a2 w2] b2]. split3 H. subst x' w2. destruct b1; [discriminate|]. destruct b2; [discriminate|]. cbn [snd] in He.
      destruct Fl as [Fl1 Fl2]. pose proof (good_sync _ _ Sy) as G. pose proof (label_keep files _ _ _ _ _ _ _ E) as M1. destruct (M1 G) as (G1 & _).
      pose proof (no_error files _ _ G1 (validate_keep files _ _ _ _ _ _ _ _ _ E2) B) as B1. destruct (label_step _ _ _ _ _ E B1 Fl1) as [-> V].
      destruct (IHc _ _ _ _ _ _ _ _ _ Sy Wf Fl2 E2 B He Es Cx) as (P2 & Sy2 & S2). split; [|auto]. apply pl_function; [apply V|exact P2].
    - split3 H. subst. apply rok in He. subst en'. unfold open_validate in *. destruct nofile; [discriminate|]. cbn [with_fm w_fm w_slots].
      destruct (open_file writable (w_fm (next_section w)) file true) as [m b] eqn:Eo. cbn [fst] in *.
      assert (Bs : has_error (next_section w) = false).
      { pose proof (open_keep files writable (next_section w) file) as M. rewrite Eo in M. cbn [fst] in M.
        exact (no_error files _ _ (proj1 (mono_section files w (good_sync _ _ Sy))) M B). }
      destruct (section_step w en Bs) as (Ha & Hs & Hf). rewrite <- Hf in Sy.
      destruct (open_sync files writable headers (next_section w) en file m b Sy Wf Eo B) as [O1 O2]. split; [|split; [exact O2|reflexivity] ].
      eapply pl_open; [exact Ha|]. rewrite <- Hs. exact O1.
    - split3 H. subst. apply rok in He. subst en'. unfold close_validate in *. destruct nofile; [discriminate|]. cbn [with_fm w_fm w_slots].
      assert (Bs : has_error (next_section w) = false).
      { exact (no_error files _ _ (proj1 (mono_section files w (good_sync _ _ Sy))) (close_keep files (next_section w)) B). }
      destruct (section_step w en Bs) as (Ha & Hs & Hf). pose proof Sy as Sy0. rewrite <- Hf in Sy. destruct (close_sync files (next_section w) en Sy) as [O1 O2].
      split; [|split; [exact O2|reflexivity] ]. rewrite O1, Hs. apply pl_close. exact Ha.
    - unfold org_validate in H. destruct (eval e (view_of w)) as [a|] eqn:Ea; [|split3 H; subst; discriminate].
      unbind H w1 E1. split3 H. subst x' w1. pose proof (proj1 (mono_section files w (good_sync _ _ Sy))) as G1.
      assert (Bs : has_error (next_section w) = false).
      { apply (no_error files _ w' G1); [|exact B]. destruct physical; [eapply seek_physical_keep|eapply seek_keep]; exact E1. }
      destruct (section_step w en Bs) as (Ha & Hs & Hf). rewrite <- Hf in Sy. destruct (section_encode _ _ Sy) as (Sy1 & Q1 & S1). destruct physical.
      + destruct (seek_physical_sync files _ _ _ _ _ Sy1 E1 B He) as (f & h & v & V & Hp & Hg & Sy2 & S2). split; [|split; [exact Sy2|congruence] ].
        rewrite Q1, Hs in Hg. rewrite Hf in V. eapply pl_orga; [exact Ha|rewrite sees_view; exact Ea|exact V|exact Hp|exact Hg].
      + destruct (seek_sync files _ _ _ _ _ Sy1 (eval_range _ _ _ Ea) E1 B He) as (Hg & Sy2 & S2 & _). split; [|split; [exact Sy2|congruence] ].
        rewrite Q1, Hs in Hg. eapply pl_org; [exact Ha|rewrite sees_view; exact Ea|exact Hg].
    - exact (sim_align m value fill passes nofile x w x' w' en en' P Sy Wf Fl H B He Es Cx).
    - unfold skip_validate in H. destruct (eval e (view_of w)) as [a|] eqn:Ea; [|split3 H; subst; discriminate].
      unbind H w1 E1. split3 H. subst x' w1. pose proof (proj1 (mono_section files w (good_sync _ _ Sy))) as G1.
      pose proof (no_error files _ w' G1 (advance_keep files _ _ _ E1) B) as Bs.
      destruct (section_step w en Bs) as (Ha & Hs & Hf). rewrite <- Hf in Sy. destruct (section_encode _ _ Sy) as (Sy1 & Q1 & S1).
      destruct (advance_sync files _ _ _ _ _ Sy1 E1 B He) as (Hg & Sy2 & S2). split; [|split; [exact Sy2|congruence] ].
      rewrite Q1, Hs in Hg. eapply pl_skip; [exact Ha|rewrite sees_view; exact Ea|exact Hg].
    - unfold header_validate in H. destruct (eval e (view_of w)) as [a|] eqn:Ea; [|split3 H; subst; discriminate].
      unbind H r E1. destruct r as [m b1]. split3 H. subst x' w'. unbind He r Ee. apply rok in He. subst en'. cbn [fst] in *.
      destruct (header_sync files _ _ _ _ _ _ Sy E1 B Ee) as (f & h & v & V & Hp & Q & Sy2). split; [|split; [exact Sy2|exact Es] ].
      rewrite Q. eapply pl_header; [rewrite sees_view; exact Ea|exact V|exact Hp].
    - exact (sim_incbin content start size passes nofile x w x' w' en en' P Sy Wf Fl H B He Es Cx).
    - unfold data_validate in H. destruct (f (w_table w) (view_of w)) as [l er] eqn:Ef. cbn [fst snd] in H. unbind H w1 E1. split3 H. subst x' w1.
      destruct er; [exfalso; pose proof (no_error files _ w' (proj1 (mono_queue files w (good_sync _ _ Sy))) (advance_keep files _ _ _ E1) B); discriminate|].
      assert (Em : emits files (unit_bytes (f_big (w_fm en)) (map (fun v => (unit, v)) l)) (pst_of w en) (pst_of w' en') /\ sync (w_fm w') (w_fm en') /\ w_slots en' = w_slots en).
      { apply (emit_sync files w en (Z.of_nat (List.length l * unit))); [exact Sy|exact E1|exact B| |rewrite unit_bytes_length, units_size_const; reflexivity].
        intros i ge T. eapply w_units_out; [exact T|apply forall_const; exact Wf|exact He]. }
      destruct Em as (Em & Sy' & Sl'). split; [|split; [exact Sy'|congruence] ]. eapply pl_data; [rewrite sees_view; exact Ef|exact Em].
    - split3 H. subst. apply rok in He. subst. split; [|split; [exact Sy|reflexivity] ]. apply (pl_table files (w_labels w) _ t (pst_of w en')).
    - split3 H. subst. apply rok in He. subst. split; [apply (pl_arch files (w_labels w) _ k big (pst_of w en))|]. split; [|reflexivity].
      unfold arch_validate. cbn [with_arch with_fm w_fm]. destruct Sy as [S1 S2 S3 S4 S5]. constructor; try assumption.
    - split3 H. subst. apply rok in He. subst. unfold message_validate in *. destruct (text (view_of w)) eqn:Et; [|discriminate]. destruct is_error; [discriminate|].
      split; [|auto]. apply pl_message. rewrite sees_view. exact Et.
    - destruct (cond_evaluate t w) as [w1 r] eqn:Ec. pose proof (cond_keep files t w (good_sync _ _ Sy)) as M. rewrite Ec in M. cbn [fst] in M. destruct M as (G1 & _).
      assert (Bc : has_error w1 = false /\ exists b, r = b).
      { split; [|eauto]. destruct r; unbind H q E1; destruct q as [ [a1 w2] b1]; split3 H; subst w2; exact (no_error files _ w' G1 (validate_keep files _ _ _ _ _ _ _ _ _ E1) B). }
      destruct Bc as [Bc _].
      assert (Hc : w1 = w /\ holds (w_labels w) t (pst_of w en) r).
      { unfold cond_evaluate in Ec. unfold holds. rewrite sees_view. destruct t as [e|l|l].
        - destruct (eval e (view_of w)) as [v|]; apply duo in Ec; destruct Ec as [<- <-]; [|discriminate]. split; [reflexivity|]. exists v. auto.
        - apply duo in Ec. destruct Ec as [<- <-]. auto.
        - apply duo in Ec. destruct Ec as [<- <-]. auto. }
      destruct Hc as [-> Hc]. destruct Wf as [Wf1 Wf2]. destruct Fl as [Fl1 Fl2]. destruct r.
      + unbind H r E1. destruct r as [[a1 w2] b1]. split3 H. subst x' w2. destruct b1; [rewrite orb_true_r in *; discriminate|]. cbn [fst snd] in He.
        destruct (IHc1 _ _ _ _ _ _ _ _ _ Sy Wf1 Fl1 E1 B He Es (ctx_l _ _ _ _ _ Cx)) as (P2 & Sy2 & S2). split; [|auto]. apply pl_then; assumption.
      + unbind H r E1. destruct r as [[a1 w2] b1]. split3 H. subst x' w2. destruct b1; [rewrite orb_true_r in *; discriminate|]. cbn [fst snd] in He.
        destruct (IHc2 _ _ _ _ _ _ _ _ _ Sy Wf2 Fl2 E1 B He Es (ctx_r _ _ _ _ _ Cx)) as (P2 & Sy2 & S2). split; [|auto]. apply pl_else; assumption.
    - destruct (IHc _ _ _ _ _ _ _ _ _ Sy Wf Fl H B He Es Cx) as (P2 & Sy2 & S2). split; [|auto]. apply pl_macro. exact P2.
    - unbind H r E1. destruct r as [[s w1] ok]. destruct ok; cbn [negb] in H.
      2:{ split3 H. subst. pose proof (area_start_bad _ _ _ _ _ _ _ E1). congruence. }
      unbind H r E2. destruct r as [[a2 w2] b2]. unbind H r E3. destruct r as [[s3 w3] b3]. split3 H. subst x' w3 b3. cbn [fst snd] in He.
      pose proof (area_finish_result _ _ _ _ _ _ _ _ _ E3) as Rb. destruct b2; [discriminate|].
      pose proof (good_sync _ _ Sy) as G. pose proof (area_start_keep files _ _ _ _ _ _ _ _ E1) as M1. destruct (M1 G) as (G1 & _).
      pose proof (validate_keep files _ _ _ _ _ _ _ _ _ E2) as M2. destruct (M2 G1) as (G2 & _).
      pose proof (no_error files _ _ G2 (area_finish_keep files _ _ _ _ _ _ _ _ _ E3) B) as B2.
      pose proof (no_error files _ _ G1 M2 B2) as B1.
      destruct (area_finish_ok _ _ _ _ _ _ _ _ _ G2 E3 B) as (_ & _ & _ & Ep & _).
      destruct (area_start_ok _ _ _ _ _ _ _ E1) as (Hpos & Hsize & Hn & Hfill).
      pose proof (area_start_labels _ _ _ _ _ _ _ _ E1) as Lb.
      unbind He e1 Ee1. unbind He e2 Ee2. rewrite Ep in Ee1.
      assert (St : exists start, start = ar_pos s /\ sync (w_fm w1) (w_fm e1) /\ w_slots e1 = w_slots en /\
        match position with
        | Some e => has_arch (pst_of w en) /\ eval e (sees (w_labels w) (pst_of w en)) = Some start /\ goes start (new_section (pst_of w en)) (pst_of w1 e1)
        | None => pst_of w1 e1 = pst_of w en /\ start = v_virtual (sees (w_labels w) (pst_of w en))
        end).
      { exists (ar_pos s). split; [reflexivity|]. rewrite sees_view. destruct position as [pe|]; cbn [is_some] in Ee1.
        - destruct Hpos as (p & Epp & Hsk & Hap). rewrite Hap in Ee1 |- *.
          pose proof (no_error files _ _ (proj1 (mono_section files w G)) (seek_keep files _ _ _ Hsk) B1) as Bs.
          destruct (section_step w en Bs) as (Ha & Hs & Hf). rewrite <- Hf in Sy. destruct (section_encode _ _ Sy) as (Sy1 & Q1 & S1).
          destruct (seek_sync files _ _ _ _ _ Sy1 (eval_range _ _ _ Epp) Hsk B1 Ee1) as (Hg & Sy2 & S2 & _). split; [exact Sy2|]. split; [congruence|].
          split; [exact Ha|]. split; [exact Epp|]. rewrite Q1, Hs in Hg. exact Hg.
        - destruct Hpos as [-> ->]. apply rok in Ee1. subst e1. auto. }
      destruct St as (start & Est & Sy1 & Sl1 & Hst).
      assert (C1 : ctx P w1 (ids c) w2) by (eapply ctx_after; [eapply area_finish_pkeep; exact E3|]; eapply ctx_before; [eapply area_start_pkeep; exact E1|exact Cx]).
      rewrite <- Lb in Fl. assert (Sq : w_slots e1 = P) by congruence. destruct (IHc _ _ _ _ _ _ _ _ _ Sy1 Wf Fl E2 B2 Ee2 Sq C1) as (P2 & Sy2 & Sl2). rewrite Lb in P2.
      destruct fill as [fe|].
      + destruct Hfill as (byte & Eby & Efl).
        destruct (area_end shared (Some fe) _ _ _ _ _ _ _ _ _ Sy2 E3 B He byte (fun _ => Efl)) as (f & h & v & V & Hfit & (used & p3 & Hu & Hm & Hem) & Sy3 & Sl3).
        split; [|split; [exact Sy3|congruence] ].
        apply (pl_area files (w_labels w) P shared size (Some fe) position c start (ar_size s) (pst_of w en) (pst_of w1 e1) (pst_of w2 e2) (pst_of w' en') f h v);
          try assumption; try (subst start; assumption).
        * rewrite <- Lb, sees_view. exact Hsize.
        * exists byte, used, p3. rewrite <- Lb, sees_view. subst start. auto.
      + destruct (area_end shared None _ _ _ _ _ _ _ _ _ Sy2 E3 B He 0 (fun K => match K eq_refl with end)) as (f & h & v & V & Hfit & Hm & Sy3 & Sl3).
        split; [|split; [exact Sy3|congruence] ].
        apply (pl_area files (w_labels w) P shared size None position c start (ar_size s) (pst_of w en) (pst_of w1 e1) (pst_of w2 e2) (pst_of w' en') f h v);
          try assumption; try (subst start; assumption).
        rewrite <- Lb, sees_view. exact Hsize.
    - destruct (passes <? 1); [unbind H r E1; destruct r as [[a1 w1] b1]; unbind H w2 E2; split3 H; discriminate|].
      destruct (range_of minr w); [|split3 H; subst; discriminate]. destruct (range_of maxr w); [|split3 H; subst; discriminate].
      unfold file_id in H. destruct (active (w_fm w)) as [[i g]|] eqn:A.
      2:{ exfalso. pose proof (good_sync _ _ Sy) as G. assert (G1 : good (w_queue w)) by exact (proj1 (mono_queue files w G)).
          match type of H with context [allocate ?a1 ?a2 ?a3 ?a4 ?a5 ?a6] => destruct (allocate a1 a2 a3 a4 a5 a6) as [al pos0] end. cbn [fst snd] in H.
          destruct pos0 as [pos|]; [|split3 H; subst; discriminate].
          unbind H w2 E2. destruct (in_int64 pos); [|discriminate]. unbind H r E3. destruct r as [[a3 w3] b3]. unbind H w4 E4. split3 H. subst.
          assert (M : mono (w_queue w) w').
          { eapply mono_trans; [apply (mono_same files (w_queue w) (with_alloc (w_queue w) al)); reflexivity|]. eapply mono_trans; [apply mono_section|].
            eapply mono_trans; [eapply seek_keep; exact E2|]. eapply mono_trans; [eapply validate_keep; exact E3|eapply seek_keep; exact E4]. }
          pose proof (no_error files _ _ G1 M B). discriminate. }
      match type of H with context [allocate ?a1 ?a2 ?a3 ?a4 ?a5 ?a6] => destruct (allocate a1 a2 a3 a4 a5 a6) as [al pos0] end. cbn [fst snd] in H.
      destruct pos0 as [pos|]; [|split3 H; subst; discriminate].
      unbind H w2 E2. destruct (in_int64 pos) eqn:Ri; [|discriminate]. apply in_int64_iff in Ri. unbind H r E3. destruct r as [[a3 w3] b3]. unbind H w4 E4. split3 H. subst x' w4.
      destruct b3; [discriminate|]. set (wa := with_alloc w al) in *. cbn [fst snd au_pos au_reset] in He.
      pose proof (good_sync _ _ Sy) as G. assert (Ga : good wa) by exact G. pose proof (mono_section files wa Ga) as (Gs & _).
      pose proof (seek_keep files _ _ _ E2 Gs) as (G2 & _). pose proof (validate_keep files _ _ _ _ _ _ _ _ _ E3) as M3. destruct (M3 G2) as (G3 & _).
      pose proof (no_error files _ _ G3 (seek_keep files _ _ _ E4) B) as B3. pose proof (no_error files _ _ G2 M3 B3) as B2.
      pose proof (no_error files _ _ Gs (seek_keep files _ _ _ E2) B2) as Bs.
      destruct (section_step wa en Bs) as (Ha & Hs & Hf). assert (Sya : sync (w_fm (next_section wa)) (w_fm en)) by (rewrite Hf; exact Sy).
      destruct (section_encode _ _ Sya) as (Sy1 & Q1 & S1).
      unbind He e1 Ee1. unbind He e2 Ee2.
      destruct (seek_sync files _ _ _ _ _ Sy1 Ri E2 B2 Ee1) as (Hg1 & Sy2 & Sl2 & _). rewrite Q1, Hs in Hg1.
      assert (Lb : w_labels w2 = w_labels w) by (rewrite (seek_labels _ _ _ E2), section_labels; reflexivity).
      rewrite <- Lb in Fl.
      assert (C1 : ctx P w2 (ids c) w3).
      { eapply ctx_after; [eapply seek_pkeep; exact E4|]. eapply ctx_before; [eapply seek_pkeep; exact E2|]. eapply ctx_before; [apply section_pkeep|].
        eapply (ctx_before _ _ w); [split; reflexivity|exact Cx]. }
      assert (Sq : w_slots e1 = P) by congruence. destruct (IHc _ _ _ _ _ _ _ _ _ Sy2 Wf Fl E3 B3 Ee2 Sq C1) as (P2 & Sy3 & Sl3). rewrite Lb in P2.
      assert (Gv : get_virtual (w_fm w) = g_virtual g) by (unfold get_virtual; rewrite A; reflexivity). rewrite Gv in *.
      destruct (sync_takes _ _ _ _ _ Sy A) as (ge & _ & Lv).
      destruct (seek_sync files _ _ _ _ _ Sy3 (lv_range _ _ Lv) E4 B He) as (Hg2 & Sy4 & Sl4 & _).
      split; [|split; [exact Sy4|congruence] ].
      apply (pl_auto files (w_labels w) P minr maxr c pos i (g_header g) (g_virtual g) (pst_of w en) (pst_of w2 e1) (pst_of w3 e2)).
      + exact Ha.
      + apply vpos_some. exact A.
      + exact Hg1.
      + exact P2.
      + exact Hg2.
    - unfold instr_validate in H. destruct (i (view_of w) (w_delay w)) as [r d] eqn:Ei. cbn [fst snd] in H. destruct r as [l|n].
      + unbind H w1 E1. split3 H. subst x' w1. cbn [snd] in He.
        assert (Em : emits files (unit_bytes (f_big (w_fm en)) l) (pst_of (with_delay w d) en) (pst_of w' en') /\ sync (w_fm w') (w_fm en') /\ w_slots en' = w_slots en).
        { apply (emit_sync files (with_delay w d) en (units_size l)); [exact Sy|exact E1|exact B| |rewrite unit_bytes_length; reflexivity].
          intros j ge T. eapply w_units_out; [exact T|eapply Wf; exact Ei|exact He]. }
        destruct Em as (Em & Sy' & Sl'). split; [|split; [exact Sy'|congruence] ]. eapply pl_instr; [rewrite sees_view; exact Ei|exact Em].
      + unbind H w1 E1. split3 H. subst. discriminate.
    - unfold load_validate in H. destruct (eval value (view_of w)) as [v|] eqn:Ev; [|split3 H; subst; discriminate]. unbind H w1 E1.
      assert (Ls : Z.to_nat (load_size thumb) = (if thumb then 2 else 4)%nat) by (destruct thumb; reflexivity).
      assert (Vu : valid_unit (if thumb then 2 else 4)%nat) by (unfold valid_unit; destruct thumb; auto).
      assert (Em : has_error w1 = false -> forall code, w_units writable own_big en [(Z.to_nat (load_size thumb), code)] = ROk en' ->
        emits files (encode_bytes (f_big (w_fm en)) (if thumb then 2 else 4) code) (pst_of w en) (pst_of w1 en') /\ sync (w_fm w1) (w_fm en') /\ w_slots en' = w_slots en).
      { intros B1 cd Hu. rewrite Ls in Hu. apply (emit_sync files w en (load_size thumb)); [exact Sy|exact E1|exact B1| |rewrite encode_bytes_length; destruct thumb; reflexivity].
        intros j ge T. assert (Vl : Forall (fun u : nat * Z => valid_unit (fst u)) [((if thumb then 2 else 4)%nat, cd)]) by (constructor; [exact Vu|constructor]). destruct (w_units_out writable own_big en j ge _ _ T Vl Hu) as (m' & -> & U). exists m'. split; [reflexivity|].
        unfold unit_bytes in U. cbn [flat_map fst snd] in U. rewrite app_nil_r in U. exact U. }
      unfold load_encode in He. destruct (short (s32 v)) as [cd|] eqn:Esh; split3 H; subst x'; cbn [ld_short ld_pos] in He.
      + subst w1. destruct (Em B _ He) as (K1 & K2 & K3). split; [|split; [exact K2|congruence] ]. eapply pl_short; [rewrite sees_view; exact Ev|exact Esh|exact K1].
      + subst w'. assert (B1 : has_error w1 = false) by exact B. destruct (Em B1 _ He) as (K1 & K2 & K3). split; [|split; [exact K2|congruence] ].
        assert (Ep : w_pool w1 = p_pending (pst_of w en)) by (apply (advance_pkeep _ _ _ E1)).
        change (pst_of (with_pool w1 (w_pool w1 ++ [mkEntry id thumb (get_virtual (w_fm w)) (s32 v)]) (w_slots w1)) en')
          with (pending (pst_of w1 en') (w_pool w1 ++ [mkEntry id thumb (get_virtual (w_fm w)) (s32 v)])).
        rewrite Ep. assert (Evv : get_virtual (w_fm w) = v_virtual (sees (w_labels w) (pst_of w en))) by (rewrite sees_view; reflexivity).
        rewrite Evv. apply pl_load; [rewrite sees_view; exact Ev|exact Esh|]. rewrite <- Evv, <- distance_literal, <- Es. exact K1.
    - exact (sim_pool passes nofile x w x' w' en en' P Sy Wf Fl H B He Es Cx).
    - unbind H r1 E1. destruct r1 as [[a1 w1] b1]. unbind H r2 E2. destruct r2 as [[data w2] b2]. split3 H. subst x' w2 b2. destruct Wf as (Wf & So & Pl).
      unbind He e1 Ee1. cbn [fst snd] in Ee1, He.
      pose proof (good_sync _ _ Sy) as G. pose proof (validate_keep files _ _ _ _ _ _ _ _ _ E1) as M1. destruct (M1 G) as (G1 & _).
      pose proof (object_pkeep _ _ _ _ _ _ _ E2) as Pk. destruct Fl as [Fl Ld].
      destruct b1; [exfalso; exact (object_result _ _ _ _ _ E2)|].
      pose proof (no_error files _ _ G1 (object_keep files _ _ _ _ _ _ _ E2) B) as B1.
      pose proof (validate_still files _ _ _ _ _ _ _ _ Wf G (sync_nonneg _ _ Sy) Fl E1 B1) as Lb.
      destruct (object_still files _ _ _ _ _ _ G1 E2 B (sections_known _ _ _ _ _ _ _ _ _ Pl (sync_nonneg _ _ Sy) E1 B1 Lb Ld)) as (_ & r & Eo & Er & -> & Fv & Ea).
      destruct (IHc _ _ _ _ _ _ _ _ _ Sy Wf Fl E1 B1 Ee1 Es (ctx_after _ _ _ _ _ Pk Cx)) as (P1 & Sy1 & S1).
      assert (Em : emits files (ob_data r) (pst_of w1 e1) (pst_of w' en') /\ sync (w_fm w') (w_fm en') /\ w_slots en' = w_slots e1).
      { apply (emit_sync files w1 e1 (ob_size r)); [exact Sy1|exact Ea|exact B| |exact (So _ _ _ Eo Er)]. intros i ge T. eapply w_write_out; eassumption. }
      destruct Em as (Em & Sy2 & S2). split; [|split; [exact Sy2|congruence] ].
      apply (pl_object files (w_labels w) P c o r (pst_of w en) (pst_of w1 e1) (pst_of w' en')); try assumption; rewrite <- Lb; [rewrite sees_view; exact Eo|exact Fv].
  Qed.
End Sim.
