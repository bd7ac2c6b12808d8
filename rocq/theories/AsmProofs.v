(** Supporting proofs about the assembly loop: a validation pass without change or error and the
    encoding after it follow the same path. *)

Require Import ZArith List Bool Lia ZifyBool.
From Verif Require Import Ints IntsLemmas Res FileModel BytesSpec FileSpec FileProofs AllocModel AsmModel AsmSpec.
Import ListNotations.
Local Open Scope Z_scope.

Ltac inv H := inversion H; subst; clear H.
Lemma rbind_ok {A B} (a : res A) (f : A -> res B) b : rbind a f = ROk b -> exists x, a = ROk x /\ f x = ROk b.
Proof. destruct a; cbn; intros H; try discriminate. eauto. Qed.
Ltac unbind H x E := apply rbind_ok in H; destruct H as (x & E & H).
Lemma rok {A} (a b : A) : ROk a = ROk b -> a = b.
Proof. congruence. Qed.
Lemma rok3 {A B C} (a a' : A) (b b' : B) (c c' : C) : ROk (a, b, c) = ROk (a', b', c') -> a = a' /\ b = b' /\ c = c'.
Proof. intros H. repeat split; congruence. Qed.
Lemma tri {A B C} (a a' : A) (b b' : B) (c c' : C) : (a, b, c) = (a', b', c') -> a = a' /\ b = b' /\ c = c'.
Proof. intros H. repeat split; congruence. Qed.
Lemma duo {A B} (a a' : A) (b b' : B) : (a, b) = (a', b') -> a = a' /\ b = b'.
Proof. intros H. split; congruence. Qed.
Ltac split3 H := first [apply rok3 in H | apply tri in H]; let H1 := fresh in let H2 := fresh in let H3 := fresh in destruct H as (H1 & H2 & H3).

(** ** Files *)

Lemma static_refl g : static g g. Proof. constructor; reflexivity. Qed.

Lemma objects_nth files m i g : objects files m -> nth_error (f_files m) i = Some g -> exists g0, nth_error files i = Some g0 /\ static g g0.
Proof.
  unfold objects. intros H. revert i. induction H as [|x y l l' Hx Hl IH]; intros [|i] E; cbn in *; try discriminate.
  - injection E as <-. eauto.
  - apply IH. exact E.
Qed.
Lemma objects_put files m i g g' : objects files m -> nth_error (f_files m) i = Some g -> static g' g -> objects files (put_file m i g').
Proof.
  unfold objects, put_file. cbn [f_files]. intros H. revert i. induction H as [|x y l l' Hx Hl IH]; intros [|i] E S'; cbn in *; try discriminate.
  - injection E as <-. constructor; [|exact Hl]. destruct Hx, S'. constructor; congruence.
  - constructor; [exact Hx|]. apply IH; assumption.
Qed.
Lemma active_some m i g : active m = Some (i, g) -> f_active m = Some i /\ nth_error (f_files m) i = Some g.
Proof.
  unfold active. destruct (f_active m) as [j|]; [|discriminate]. destruct (nth_error (f_files m) j) as [x|] eqn:E; [|discriminate].
  intros H. injection H as -> ->. auto.
Qed.
Lemma active_put m i g g' : active m = Some (i, g) -> active (put_file m i g') = Some (i, g').
Proof.
  intros H. destruct (active_some _ _ _ H) as [A E]. unfold active, put_file. cbn [f_active f_files]. rewrite A, set_file_nth, Nat.eqb_refl, E. reflexivity.
Qed.

Lemma quiet_nth m i g : quiet m -> nth_error (f_files m) i = Some g -> g_open g = false.
Proof. intros H E. exact (proj1 (Forall_forall _ _) H g (nth_error_In _ _ E)). Qed.
Lemma set_file_in l i g x : In x (set_file l i g) -> x = g \/ In x l.
Proof.
  revert i. induction l as [|y l IH]; intros [|i] H; cbn in *; auto.
  - destruct H as [<-|H]; auto.
  - destruct H as [<-|H]; auto. destruct (IH _ H); auto.
Qed.
Lemma quiet_put m i g : quiet m -> g_open g = false -> quiet (put_file m i g).
Proof.
  unfold quiet, put_file. cbn [f_files]. intros H Hg. apply Forall_forall. intros x Hx. destruct (set_file_in _ _ _ _ Hx) as [-> | H']; [exact Hg|].
  exact (proj1 (Forall_forall _ _) H x H').
Qed.

Definition bad (m : fmgr) : bool := f_queued m || f_printed m.
Lemma bad_queue m : bad (queue m) = true. Proof. reflexivity. Qed.
Lemma bad_print m : bad (print m) = true. Proof. unfold bad, print. cbn. apply orb_true_r. Qed.

(** ** Moving while nothing is open *)

Lemma seek_quiet m a m' b : quiet m -> seek_virtual m a = ROk (m', b) ->
  (bad m' = true /\ m' = queue m) \/
  exists i g, active m = Some (i, g) /\ m' = put_file m i (set_virtual g a) /\ 0 <= a - g_header g.
Proof.
  intros Q. unfold seek_virtual. destruct (active m) as [[i g]|] eqn:A.
  - unfold file_seek_virtual. destruct (in_int64 (a - g_header g)); cbn [negb]; [|discriminate].
    destruct (Z.ltb_spec (a - g_header g) 0) as [N|N]; intros H.
    + left. split; [|congruence]. replace m' with (queue m) by congruence. reflexivity.
    + right. exists i, g. split; [reflexivity|]. split; [|lia].
      pose proof (quiet_nth _ _ _ Q (proj2 (active_some _ _ _ A))) as O. unfold set_virtual in H. cbn [g_open] in H. rewrite O in H.
      unfold set_virtual. rewrite O. congruence.
  - intros H. left. split; [|congruence]. replace m' with (queue m) by congruence. reflexivity.
Qed.
Lemma seek_physical_quiet m a m' b : quiet m -> seek_physical m a = ROk (m', b) ->
  (bad m' = true /\ m' = queue m) \/
  exists i g, active m = Some (i, g) /\ m' = put_file m i (set_virtual g (a + g_header g)) /\ 0 <= a /\ is_int64 (a + g_header g).
Proof.
  intros Q. unfold seek_physical. destruct (active m) as [[i g]|] eqn:A.
  - unfold file_seek_physical. destruct (Z.ltb_spec a 0) as [N|N]; intros H.
    + left. split; [|congruence]. replace m' with (queue m) by congruence. reflexivity.
    + destruct (in_int64 (a + g_header g)) eqn:I; cbn [negb] in H; [|discriminate].
      right. exists i, g. split; [reflexivity|]. split; [|split; [lia|apply in_int64_iff; exact I]].
      pose proof (quiet_nth _ _ _ Q (proj2 (active_some _ _ _ A))) as O. unfold set_virtual in H. cbn [g_open] in H. rewrite O in H.
      unfold set_virtual. rewrite O. congruence.
  - intros H. left. split; [|congruence]. replace m' with (queue m) by congruence. reflexivity.
Qed.
Lemma advance_seek m n : advance m n = match active m with None => ROk (queue m, false) | Some (_, g) => seek_virtual m (s64 (g_virtual g + n)) end.
Proof. unfold advance, seek_virtual. destruct (active m) as [[i g]|]; reflexivity. Qed.
Lemma advance_quiet m n m' b : quiet m -> advance m n = ROk (m', b) ->
  (bad m' = true /\ m' = queue m) \/
  exists i g, active m = Some (i, g) /\ m' = put_file m i (set_virtual g (s64 (g_virtual g + n))) /\ 0 <= s64 (g_virtual g + n) - g_header g.
Proof.
  intros Q. rewrite advance_seek. destruct (active m) as [[i g]|] eqn:A.
  - intros H. destruct (seek_quiet _ _ _ _ Q H) as [K|(i' & g' & A' & K)]; [left; exact K|right]. rewrite A in A'. injection A' as <- <-. eauto.
  - intros H. left. split; [|congruence]. replace m' with (queue m) by congruence. reflexivity.
Qed.
Lemma header_quiet m h m' b : quiet m -> header_size m h = ROk (m', b) ->
  exists i g, active m = Some (i, g) /\
  (bad m' = true /\ m' = queue (put_file m i (set_header g h)) \/
   m' = put_file m i (set_virtual (set_header g h) (g_virtual g - g_header g + h)) /\ 0 <= g_virtual g - g_header g /\ is_int64 (g_virtual g - g_header g + h)).
Proof.
  intros Q. unfold header_size. destruct (active m) as [[i g]|] eqn:A; [|discriminate]. intros H. exists i, g. split; [reflexivity|].
  unfold file_seek_physical in H. destruct (Z.ltb_spec (g_virtual g - g_header g) 0) as [N|N].
  - left. split; [|congruence]. replace m' with (queue (put_file m i (set_header g h))) by congruence. reflexivity.
  - destruct (in_int64 (g_virtual g - g_header g + g_header (set_header g h))) eqn:I; cbn [negb] in H; [|discriminate].
    apply in_int64_iff in I. cbn [set_header g_header] in I. right. split; [|auto].
    pose proof (quiet_nth _ _ _ Q (proj2 (active_some _ _ _ A))) as O. unfold set_virtual, set_header in H. cbn [g_open g_header g_name g_original g_mode g_header0 g_pos g_fail g_virtual] in H. rewrite O in H.
    unfold set_virtual, set_header. cbn [g_open g_header g_name g_original g_mode g_header0 g_pos g_fail g_virtual]. rewrite O. replace m' with (fst (m', b)) by reflexivity. apply rok in H. rewrite <- H. cbn [fst]. unfold put_file. cbn [f_files f_active f_big f_disk f_queued f_printed].
    rewrite set_file_twice. reflexivity.
Qed.

(** ** Relations that all steps of validating are in *)

(** All labels and objects of a command satisfy a condition. *)
Fixpoint within (okl : nat -> Prop) (oko : object -> Prop) (c : src) : Prop :=
  match c with
  | CSeq a b | CCond _ a b => within okl oko a /\ within okl oko b
  | CLabel l _ => okl l
  | CFunction l c => okl l /\ within okl oko c
  | CMacro c | CArea _ _ _ _ c | CAuto _ _ c => within okl oko c
  | CObj c o => within okl oko c /\ oko o
  | _ => True
  end.

Section Steps.
  Variable writable : nat -> bool.
  Variable okl : nat -> Prop.
  Variable oko : object -> Prop.
  Variable R : world -> world -> Prop.
  Hypothesis R_refl : forall w, R w w.
  Hypothesis R_trans : forall w w1 w2, R w w1 -> R w1 w2 -> R w w2.
  Hypothesis R_same : forall w w', w_fm w' = w_fm w -> w_labels w' = w_labels w -> R w w'.
  Hypothesis R_queue : forall w, R w (w_queue w).
  Hypothesis R_print : forall w, R w (w_print w).
  Hypothesis R_seek : forall w a w', w_seek w a = ROk w' -> R w w'.
  Hypothesis R_seek_physical : forall w a w', w_seek_physical w a = ROk w' -> R w w'.
  Hypothesis R_advance : forall w a w', w_advance w a = ROk w' -> R w w'.
  Hypothesis R_header : forall w h m b, header_size (w_fm w) h = ROk (m, b) -> R w (with_fm w m).
  Hypothesis R_open : forall w i, R w (with_fm w (fst (open_file writable (w_fm w) i true))).
  Hypothesis R_close : forall w, R w (with_fm w (close_file (w_fm w))).
  Hypothesis R_endian : forall w b, R w (with_fm w (set_endianness (w_fm w) b)).
  Hypothesis R_label : forall l v d w d' w' b, okl l -> label_validate l v d w = (d', w', b) -> R w w'.
  Hypothesis R_object : forall o old w result data w' b, oko o -> object_validate o old w result = ROk (data, w', b) -> R w w'.

  Lemma R_section w : R w (next_section w).
  Proof. unfold next_section. destruct (w_arch w); [apply R_print|apply R_refl|apply R_same; reflexivity|apply R_refl]. Qed.
  Lemma R_file_id w : R w (fst (file_id w)).
  Proof. unfold file_id. destruct (active (w_fm w)) as [[i g]|]; [apply R_refl|apply R_queue]. Qed.
  Lemma R_pool passes position l : forall values w, R w (snd (pool_loop passes position l values w)).
  Proof.
    induction l as [|e l IH]; intros values w; [apply R_refl|]. cbn [pool_loop]. eapply R_trans; [|apply IH].
    unfold set_pool_address. destruct (pool_reach _ _); [apply R_same; reflexivity|apply R_queue].
  Qed.
  Lemma R_cond t w : R w (fst (cond_evaluate t w)).
  Proof. unfold cond_evaluate. destruct t; try apply R_refl. destruct (eval e (view_of w)); [apply R_refl|apply R_queue]. Qed.
  Lemma R_message e t w : R w (message_validate e t w).
  Proof. unfold message_validate. destruct (t (view_of w)); [destruct e|]; try apply R_queue. apply R_refl. Qed.
  Lemma R_arch k b w : R w (arch_validate k b w).
  Proof. unfold arch_validate. eapply R_trans; [apply (R_same w (with_arch w k)); reflexivity|apply R_endian]. Qed.
  Lemma R_area_start size fill position a w a' w' b : area_start size fill position a w = ROk (a', w', b) -> R w w'.
  Proof.
    unfold area_start. intros H. unbind H r E. destruct r as [[a1 w1] ok].
    assert (M1 : R w w1).
    { destruct position as [e|].
      - destruct (eval e (view_of w)) as [p|].
        + unbind E w0 E0. apply R_seek in E0. split3 E. subst w1. eapply R_trans; [apply R_section|exact E0].
        + split3 E. subst w1. apply R_queue.
      - split3 E. subst w1. apply R_refl. }
    destruct (negb ok); [split3 H; subst w'; exact M1|]. destruct (eval size (view_of w1)) as [n|]; [|split3 H; subst w'; eapply R_trans; [exact M1|apply R_queue] ].
    destruct (n <? 0); [split3 H; subst w'; eapply R_trans; [exact M1|apply R_queue]|].
    destruct fill as [e|]; [|split3 H; subst w'; exact M1].
    destruct (eval e (view_of w1)); split3 H; subst w'; [exact M1|eapply R_trans; [exact M1|apply R_queue] ].
  Qed.
  Lemma R_area_finish shared filled old a w r a' w' b : area_finish shared filled old a w r = ROk (a', w', b) -> R w w'.
  Proof.
    unfold area_finish. intros H. set (w1 := if ar_size a <? _ then w_queue w else w) in H.
    assert (M1 : R w w1) by (unfold w1; destruct (_ <? _); [apply R_queue|apply R_refl]).
    unbind H w2 E2. assert (M2 : R w1 w2) by (destruct (filled || shared); [eapply R_advance; exact E2|apply rok in E2; subst w2; apply R_refl]).
    pose proof (R_file_id w2) as M3. destruct (file_id w2) as [w3 id]. cbn [fst] in M3. split3 H. subst w'.
    eapply R_trans; [exact M1|]. eapply R_trans; [exact M2|]. eapply R_trans; [exact M3|].
    apply R_same; destruct (_ && _); destruct (ar_size a =? 0); reflexivity.
  Qed.

  Lemma validate_steps passes c : forall nofile a w a' w' b, within okl oko c -> validate writable nofile passes c a w = ROk (a', w', b) -> R w w'.
  Proof.
    induction c; intros nofile a w a' w' b0 K H; cbn [validate ann within] in *.
    - split3 H. subst. apply R_refl.
    - unbind H r1 E1. destruct r1 as [[a1 w1] b1]. unbind H r2 E2. destruct r2 as [[a2 w2] b2]. split3 H. subst.
      eapply R_trans; [eapply IHc1; [exact (proj1 K)|exact E1]|eapply IHc2; [exact (proj2 K)|exact E2]].
    - apply rok in H. eapply R_label; [exact K|exact H].
    - match type of H with context [label_validate ?p ?q ?r ?s] => destruct (label_validate p q r s) as [[d w1] b1] eqn:E end. unbind H r2 E2. destruct r2 as [[a2 w2] b2]. split3 H. subst.
      eapply R_trans; [eapply R_label; [exact (proj1 K)|exact E]|eapply IHc; [exact (proj2 K)|exact E2]].
    - split3 H. subst. unfold open_validate. destruct nofile; [apply R_queue|]. eapply R_trans; [apply R_section|]. apply R_open.
    - split3 H. subst. unfold close_validate. destruct nofile; [apply R_queue|]. eapply R_trans; [apply R_section|]. apply R_close.
    - unfold org_validate in H. destruct (eval e (view_of w)) as [x|]; [|split3 H; subst; apply R_queue].
      unbind H w1 E1. split3 H. subst. eapply R_trans; [apply R_section|]. destruct physical; [eapply R_seek_physical|eapply R_seek]; exact E1.
    - unfold align_validate in H. destruct (eval value (view_of w)) as [n|]; [|split3 H; subst; apply R_queue].
      destruct (_ && (n =? int64_min)); [discriminate|].
      destruct (_ && _); [split3 H; subst; apply R_queue|].
      destruct (match fill with None => _ | Some e => _ end) as [byte|]; [|split3 H; subst; apply R_print].
      unbind H w1 E1. split3 H. subst. eapply R_trans; [apply R_section|eapply R_advance; exact E1].
    - unfold skip_validate in H. destruct (eval e (view_of w)) as [x|]; [|split3 H; subst; apply R_queue].
      unbind H w1 E1. split3 H. subst. eapply R_trans; [apply R_section|eapply R_advance; exact E1].
    - unfold header_validate in H. destruct (eval e (view_of w)) as [x|]; [|split3 H; subst; apply R_queue].
      unbind H r E1. destruct r as [m b1]. split3 H. subst. eapply R_header. exact E1.
    - unfold incbin_validate in H. destruct (match start with None => _ | Some e => _ end) as [s|]; [|split3 H; subst; apply R_queue].
      destruct (_ && _); [split3 H; subst; apply R_queue|].
      destruct (match size with None => _ | Some e => _ end) as [n|]; [|split3 H; subst; apply R_queue].
      destruct (negb _); [discriminate|]. unbind H w1 E1. split3 H. subst. eapply R_trans; [apply R_section|eapply R_advance; exact E1].
    - unfold data_validate in H. unbind H w1 E1. split3 H. subst. eapply R_trans; [|eapply R_advance; exact E1].
      destruct (snd (f (w_table w) (view_of w))); [apply R_queue|apply R_refl].
    - split3 H. subst. apply R_same; reflexivity.
    - split3 H. subst. apply R_arch.
    - split3 H. subst. apply R_message.
    - pose proof (R_cond t w) as M. destruct (cond_evaluate t w) as [w1 r]. cbn [fst] in M. destruct r.
      + unbind H r E1. destruct r as [[a1 w2] b1]. split3 H. subst. eapply R_trans; [exact M|eapply IHc1; [exact (proj1 K)|exact E1] ].
      + unbind H r E1. destruct r as [[a1 w2] b1]. split3 H. subst. eapply R_trans; [exact M|eapply IHc2; [exact (proj2 K)|exact E1] ].
    - eapply IHc; [exact K|exact H].
    - unbind H r E1. destruct r as [[s w1] ok]. pose proof (R_area_start _ _ _ _ _ _ _ _ E1) as M. destruct (negb ok); [split3 H; subst; exact M|].
      unbind H r E2. destruct r as [[a2 w2] b2]. unbind H r E3. destruct r as [[a3 w3] b3]. split3 H. subst.
      eapply R_trans; [exact M|]. eapply R_trans; [eapply IHc; [exact K|exact E2]|eapply R_area_finish; exact E3].
    - destruct (passes <? 1).
      + unbind H r E1. destruct r as [[a1 w1] b1]. unbind H w2 E2. split3 H. subst. eapply R_trans; [eapply IHc; [exact K|exact E1]|eapply R_seek; exact E2].
      + destruct (range_of minr w); [|split3 H; subst; apply R_queue]. destruct (range_of maxr w); [|split3 H; subst; apply R_queue].
        pose proof (R_file_id w) as M. destruct (file_id w) as [w1 id]. cbn [fst] in M.
        assert (M1 : forall x, R w (with_alloc w1 x)) by (intros x; eapply R_trans; [exact M|apply R_same; reflexivity]).
        destruct (snd (allocate _ _ _ _ _ _)) as [pos|].
        * unbind H w2 E2. destruct (in_int64 pos); [|discriminate]. unbind H r E3. destruct r as [[a3 w3] b3]. unbind H w4 E4. split3 H. subst.
          eapply R_trans; [apply M1|]. eapply R_trans; [apply R_section|]. eapply R_trans; [eapply R_seek; exact E2|].
          eapply R_trans; [eapply IHc; [exact K|exact E3]|eapply R_seek; exact E4].
        * split3 H. subst. eapply R_trans; [apply M1|apply R_queue].
    - unfold instr_validate in H. destruct (fst (i (view_of w) (w_delay w))) as [l|n].
      + unbind H w1 E1. split3 H. subst. eapply R_trans; [|eapply R_advance; exact E1]. apply R_same; reflexivity.
      + unbind H w1 E1. split3 H. subst. eapply R_trans; [eapply R_advance; exact E1|apply R_queue].
    - unfold load_validate in H. destruct (eval value (view_of w)) as [v|]; [|split3 H; subst; apply R_queue].
      unbind H w1 E1. pose proof (R_advance _ _ _ E1) as M. destruct (short (s32 v)); split3 H; subst; [exact M|].
      eapply R_trans; [exact M|apply R_same; reflexivity].
    - unfold pool_validate in H. pose proof (R_file_id w) as M. destruct (file_id w) as [w1 id]. cbn [fst] in M.
      set (w2 := if fst a =? -1 then w1 else _) in H.
      assert (M2 : R w1 w2) by (unfold w2; destruct (fst a =? -1); [apply R_refl|apply R_same; reflexivity]).
      pose proof (R_pool passes (get_virtual (w_fm w2)) (w_pool w2) [] w2) as M3.
      destruct (pool_loop passes (get_virtual (w_fm w2)) (w_pool w2) [] w2) as [values w3]. cbn [snd] in M3.
      unbind H w4 E4. split3 H. subst. eapply R_trans; [exact M|]. eapply R_trans; [exact M2|]. eapply R_trans; [exact M3|].
      eapply R_trans; [apply (R_same w3 (with_pool w3 [] (w_slots w3))); reflexivity|]. eapply R_trans; [eapply R_advance; exact E4|apply R_same; reflexivity].
    - unbind H r1 E1. destruct r1 as [[a1 w1] b1]. unbind H r2 E2. destruct r2 as [[a2 w2] b2]. split3 H. subst.
      eapply R_trans; [eapply IHc; [exact (proj1 K)|exact E1]|eapply R_object; [exact (proj2 K)|exact E2]].
  Qed.
End Steps.

(** ** What validating keeps *)

Section Keep.
  Variable files : list gfile.
  Variable writable : nat -> bool.
  Definition good (w : world) : Prop := files_ok files (w_fm w).
  Definition mono (w w' : world) : Prop := good w ->
    good w' /\ f_disk (w_fm w') = f_disk (w_fm w) /\ (has_error w' = false -> has_error w = false) /\
    (forall l, l_def (w_labels w l) = true -> l_def (w_labels w' l) = true).

  Lemma mono_refl w : mono w w.
  Proof. intros G. auto. Qed.
  Lemma mono_trans w w1 w2 : mono w w1 -> mono w1 w2 -> mono w w2.
  Proof.
    intros H1 H2 G. destruct (H1 G) as (G1 & D1 & B1 & L1). destruct (H2 G1) as (G2 & D2 & B2 & L2).
    split; [exact G2|]. split; [congruence|]. split; auto.
  Qed.
  (** Steps that do not touch files, labels or errors *)
  Lemma mono_same w w' : w_fm w' = w_fm w -> w_labels w' = w_labels w -> mono w w'.
  Proof. intros E1 E2 G. unfold good, has_error in *. rewrite E1, E2. auto. Qed.
  (** Steps of the file manager *)
  Lemma mono_fm w m : (files_ok files (w_fm w) -> files_ok files m /\ f_disk m = f_disk (w_fm w) /\ (bad m = false -> bad (w_fm w) = false)) ->
    mono w (with_fm w m).
  Proof. intros H G. destruct (H G) as (H1 & H2 & H3). unfold good, has_error. cbn [w_fm with_fm w_labels]. auto. Qed.
  Lemma mono_queue w : mono w (w_queue w).
  Proof. apply mono_fm. intros [O Q]. split; [split; assumption|]. split; [reflexivity|discriminate]. Qed.
  Lemma mono_print w : mono w (w_print w).
  Proof. apply mono_fm. intros [O Q]. split; [split; assumption|]. split; [reflexivity|]. rewrite bad_print. discriminate. Qed.
  Lemma mono_section w : mono w (next_section w).
  Proof. unfold next_section. destruct (w_arch w); [apply mono_print|apply mono_refl|apply mono_same; reflexivity|apply mono_refl]. Qed.
  Lemma put_ok m i g g' : files_ok files m -> nth_error (f_files m) i = Some g -> static g' g -> g_open g' = false -> files_ok files (put_file m i g').
  Proof. intros [O Q] E S' H. split; [eapply objects_put; eassumption|apply quiet_put; assumption]. Qed.
  Lemma queue_ok m : files_ok files m -> files_ok files (queue m).
  Proof. intros [O Q]. split; assumption. Qed.
  Lemma seek_keep w a w' : w_seek w a = ROk w' -> mono w w'.
  Proof.
    unfold w_seek. intros H. unbind H r E. apply rok in H. subst w'. destruct r as [m b]. cbn [fst]. apply mono_fm. intros G.
    destruct (seek_quiet _ _ _ _ (proj2 G) E) as [[B ->]|(i & g & A & -> & _)].
    - split; [apply queue_ok, G|]. split; [reflexivity|discriminate].
    - destruct (active_some _ _ _ A) as [_ N]. split; [|split; [reflexivity|auto]].
      eapply put_ok; [exact G|exact N|constructor; reflexivity|]. exact (quiet_nth _ _ _ (proj2 G) N).
  Qed.
  Lemma seek_physical_keep w a w' : w_seek_physical w a = ROk w' -> mono w w'.
  Proof.
    unfold w_seek_physical. intros H. unbind H r E. apply rok in H. subst w'. destruct r as [m b]. cbn [fst]. apply mono_fm. intros G.
    destruct (seek_physical_quiet _ _ _ _ (proj2 G) E) as [[B ->]|(i & g & A & -> & _)].
    - split; [apply queue_ok, G|]. split; [reflexivity|discriminate].
    - destruct (active_some _ _ _ A) as [_ N]. split; [|split; [reflexivity|auto]].
      eapply put_ok; [exact G|exact N|constructor; reflexivity|]. exact (quiet_nth _ _ _ (proj2 G) N).
  Qed.
  Lemma advance_keep w a w' : w_advance w a = ROk w' -> mono w w'.
  Proof.
    unfold w_advance. intros H. unbind H r E. apply rok in H. subst w'. destruct r as [m b]. cbn [fst]. apply mono_fm. intros G.
    destruct (advance_quiet _ _ _ _ (proj2 G) E) as [[B ->]|(i & g & A & -> & _)].
    - split; [apply queue_ok, G|]. split; [reflexivity|discriminate].
    - destruct (active_some _ _ _ A) as [_ N]. split; [|split; [reflexivity|auto]].
      eapply put_ok; [exact G|exact N|constructor; reflexivity|]. exact (quiet_nth _ _ _ (proj2 G) N).
  Qed.
  Lemma header_keep w h m b : header_size (w_fm w) h = ROk (m, b) -> mono w (with_fm w m).
  Proof.
    intros E. apply mono_fm. intros G. destruct (header_quiet _ _ _ _ (proj2 G) E) as (i & g & A & K).
    destruct (active_some _ _ _ A) as [_ N]. pose proof (quiet_nth _ _ _ (proj2 G) N) as O.
    destruct K as [[B ->]|(-> & _ & _)].
    - split; [|split; [reflexivity|discriminate]]. apply queue_ok. eapply put_ok; [exact G|exact N|constructor; reflexivity|exact O].
    - split; [|split; [reflexivity|auto]]. eapply put_ok; [exact G|exact N|constructor; reflexivity|exact O].
  Qed.
  Lemma close_active_ok m : files_ok files m -> files_ok files (match active m with Some (j, g) => put_file m j (stream_close g) | None => m end).
  Proof.
    intros G. destruct (active m) as [[j g]|] eqn:A; [|exact G]. destruct (active_some _ _ _ A) as [_ N].
    eapply put_ok; [exact G|exact N|constructor; reflexivity|reflexivity].
  Qed.
  Lemma open_keep w i : mono w (with_fm w (fst (open_file writable (w_fm w) i true))).
  Proof.
    apply mono_fm. intros G. unfold open_file. pose proof (close_active_ok _ G) as G1.
    set (m1 := match active (w_fm w) with Some (j, g) => put_file (w_fm w) j (stream_close g) | None => w_fm w end) in *.
    assert (E1 : f_disk m1 = f_disk (w_fm w) /\ bad m1 = bad (w_fm w)) by (unfold m1; destruct (active (w_fm w)) as [[j g]|]; split; reflexivity).
    destruct E1 as [D1 B1]. change (f_files (set_active m1 (Some i))) with (f_files m1).
    destruct (nth_error (f_files m1) i) as [g|] eqn:N.
    - unfold open_check. destruct (if _ : bool then _ else _) as [m' b] eqn:Em.
      assert (P : files_ok files (put_file (set_active m1 (Some i)) i (set_virtual (set_header g (g_header0 g)) (g_header0 g)))).
      { eapply put_ok; [exact G1|exact N|constructor; reflexivity|]. exact (quiet_nth _ _ _ (proj2 G1) N). }
      cbn [fst]. match type of Em with (if ?c then _ else _) = _ => destruct c end; injection Em as <- _.
      + split; [exact P|]. split; [exact D1|]. unfold bad in *. cbn. rewrite <- B1. auto.
      + split; [apply queue_ok, P|]. split; [exact D1|discriminate].
    - cbn [fst]. split; [exact G1|]. split; [exact D1|]. unfold bad in *. cbn. rewrite <- B1. auto.
  Qed.
  Lemma close_keep w : mono w (with_fm w (close_file (w_fm w))).
  Proof.
    apply mono_fm. intros G. pose proof (close_active_ok _ G) as G1. unfold close_file. destruct (active (w_fm w)) as [[j g]|] eqn:A; [|auto].
    split; [exact G1|]. split; [reflexivity|auto].
  Qed.
  Lemma file_id_keep w : mono w (fst (file_id w)).
  Proof. unfold file_id. destruct (active (w_fm w)) as [[i g]|]; [apply mono_refl|apply mono_queue]. Qed.
  Lemma mono_labels w L : (forall l, l_def (w_labels w l) = true -> l_def (L l) = true) -> mono w (with_labels w L).
  Proof. intros H G. split; [exact G|]. split; [reflexivity|]. split; [auto|exact H]. Qed.
  Lemma set_label_def L l x k : (l_def (L l) = true -> l_def x = true) -> l_def (L k) = true -> l_def (set_label L l x k) = true.
  Proof. intros H K. unfold set_label. destruct (Nat.eqb_spec k l) as [->|]; auto. Qed.
  Lemma label_keep l v d w d' w' b : label_validate l v d w = (d', w', b) -> mono w w'.
  Proof.
    unfold label_validate. destruct (negb d && l_def (w_labels w l)) eqn:E1.
    - intros H. split3 H. subst. apply mono_queue.
    - set (w1 := if d then w else _).
      assert (M1 : mono w w1). { unfold w1. destruct d; [apply mono_refl|]. apply mono_labels. intros k. apply set_label_def. auto. }
      destruct v as [e|].
      + destruct (eval e (view_of w1)) as [x|].
        * destruct (l_val (w_labels w1 l) =? x); intros H; split3 H; subst w'; [exact M1|]. eapply mono_trans; [exact M1|].
          apply mono_labels. intros k. apply set_label_def. auto.
        * intros H. split3 H. subst w'. eapply mono_trans; [exact M1|apply mono_print].
      + destruct (l_val (w_labels w1 l) =? get_virtual (w_fm w1)) eqn:Ev.
        * destruct (match l_phys (w_labels w1 l) with Some q => _ =? q | None => false end); intros H; split3 H; subst w'; [exact M1|].
          eapply mono_trans; [exact M1|]. apply mono_labels. intros k. apply set_label_def. auto.
        * set (w2 := with_labels w1 _). assert (M2 : mono w w2).
          { eapply mono_trans; [exact M1|]. apply mono_labels. intros k. apply set_label_def. auto. }
          destruct (match l_phys (w_labels w2 l) with Some q => _ =? q | None => false end); intros H; split3 H; subst w'; [exact M2|].
          eapply mono_trans; [exact M2|]. apply mono_labels. intros k. apply set_label_def. auto.
  Qed.
  Lemma set_pool_keep w e x : mono w (set_pool_address w e x).
  Proof. unfold set_pool_address. destruct (pool_reach _ _); [apply mono_same; reflexivity|apply mono_queue]. Qed.
  Lemma pool_loop_keep passes position l : forall values w, mono w (snd (pool_loop passes position l values w)).
  Proof.
    induction l as [|e l IH]; intros values w; [apply mono_refl|]. cbn [pool_loop]. eapply mono_trans; [apply set_pool_keep|apply IH].
  Qed.
  Lemma cond_keep t w : mono w (fst (cond_evaluate t w)).
  Proof. unfold cond_evaluate. destruct t; try apply mono_refl. destruct (eval e (view_of w)); [apply mono_refl|apply mono_queue]. Qed.
  Lemma message_keep e t w : mono w (message_validate e t w).
  Proof. unfold message_validate. destruct (t (view_of w)); [destruct e|]; try apply mono_queue. apply mono_refl. Qed.
  Lemma arch_keep k b w : mono w (arch_validate k b w).
  Proof.
    unfold arch_validate. eapply mono_trans; [apply (mono_same w (with_arch w k)); reflexivity|]. apply mono_fm. intros G. split; [exact G|]. split; [reflexivity|auto].
  Qed.

  Lemma area_start_keep size fill position a w a' w' b : area_start size fill position a w = ROk (a', w', b) -> mono w w'.
  Proof.
    unfold area_start. intros H. unbind H r E. destruct r as [[a1 w1] ok].
    assert (M1 : mono w w1).
    { destruct position as [e|].
      - destruct (eval e (view_of w)) as [p|].
        + unbind E w0 E0. apply seek_keep in E0. split3 E. subst w1. eapply mono_trans; [apply mono_section|exact E0].
        + split3 E. subst w1. apply mono_queue.
      - split3 E. subst w1. apply mono_refl. }
    destruct (negb ok); [split3 H; subst w'; exact M1|]. destruct (eval size (view_of w1)) as [n|]; [|split3 H; subst w'; eapply mono_trans; [exact M1|apply mono_queue] ].
    destruct (n <? 0); [split3 H; subst w'; eapply mono_trans; [exact M1|apply mono_queue]|].
    destruct fill as [e|]; [|split3 H; subst w'; exact M1].
    destruct (eval e (view_of w1)); split3 H; subst w'; [exact M1|eapply mono_trans; [exact M1|apply mono_queue] ].
  Qed.
  Lemma area_finish_keep shared filled old a w r a' w' b : area_finish shared filled old a w r = ROk (a', w', b) -> mono w w'.
  Proof.
    unfold area_finish. intros H. set (w1 := if ar_size a <? _ then w_queue w else w) in H.
    assert (M1 : mono w w1) by (unfold w1; destruct (_ <? _); [apply mono_queue|apply mono_refl]).
    unbind H w2 E2. assert (M2 : mono w1 w2) by (destruct (filled || shared); [eapply advance_keep; exact E2|apply rok in E2; subst w2; apply mono_refl]).
    pose proof (file_id_keep w2) as M3. destruct (file_id w2) as [w3 id]. cbn [fst] in M3. split3 H. subst w'.
    eapply mono_trans; [exact M1|]. eapply mono_trans; [exact M2|]. eapply mono_trans; [exact M3|].
    apply mono_same; destruct (_ && _); destruct (ar_size a =? 0); reflexivity.
  Qed.

  Lemma set_values_def l : forall L k, l_def (fst (set_values L l) k) = l_def (L k).
  Proof.
    induction l as [|[j v] l IH]; intros L k; [reflexivity|]. cbn [set_values].
    destruct (l_val (L j) =? v); [specialize (IH L k); destruct (set_values L l); exact IH|].
    specialize (IH (set_label L j (mkLab (l_def (L j)) v (l_phys (L j)))) k). destruct (set_values _ l). cbn [fst] in *. rewrite IH.
    unfold set_label. destruct (Nat.eqb_spec k j) as [->|_]; reflexivity.
  Qed.
  Lemma object_keep o old w result data w' b : object_validate o old w result = ROk (data, w', b) -> mono w w'.
  Proof.
    unfold object_validate. destruct (o (w_labels w) (get_virtual (w_fm w))) as [r|]; [|discriminate]. intros H.
    pose proof (set_values_def (ob_symbols r) (w_labels w)) as D1. destruct (set_values (w_labels w) (ob_symbols r)) as [L1 moved]. cbn [fst] in D1.
    pose proof (set_values_def (ob_sections r) L1) as D2. destruct (set_values L1 (ob_sections r)) as [L2 b2]. cbn [fst] in D2.
    unbind H w1 E1. split3 H. subst w1. eapply mono_trans; [|eapply advance_keep; exact E1].
    assert (M : mono w (with_labels w L2)) by (intros G; split; [exact G|]; split; [reflexivity|]; split; [auto|]; intros l; cbn; rewrite D2, D1; auto).
    destruct (ob_error r); [eapply mono_trans; [exact M|apply mono_queue]|exact M].
  Qed.

  Lemma validate_keep passes c : forall nofile a w a' w' b, validate writable nofile passes c a w = ROk (a', w', b) -> mono w w'.
  Proof.
    induction c; intros nofile a w a' w' b0 H; cbn [validate ann] in *.
    - split3 H. subst. apply mono_refl.
    - unbind H r1 E1. destruct r1 as [[a1 w1] b1]. unbind H r2 E2. destruct r2 as [[a2 w2] b2]. split3 H. subst.
      eapply mono_trans; [eapply IHc1; exact E1|eapply IHc2; exact E2].
    - apply rok in H. eapply label_keep. exact H.
    - match type of H with context [label_validate ?p ?q ?r ?s] => destruct (label_validate p q r s) as [[d w1] b1] eqn:E end. unbind H r2 E2. destruct r2 as [[a2 w2] b2]. split3 H. subst.
      eapply mono_trans; [eapply label_keep; exact E|eapply IHc; exact E2].
    - split3 H. subst. unfold open_validate. destruct nofile; [apply mono_queue|]. eapply mono_trans; [apply mono_section|]. apply open_keep.
    - split3 H. subst. unfold close_validate. destruct nofile; [apply mono_queue|]. eapply mono_trans; [apply mono_section|]. apply close_keep.
    - unfold org_validate in H. destruct (eval e (view_of w)) as [x|]; [|split3 H; subst; apply mono_queue].
      unbind H w1 E1. split3 H. subst. eapply mono_trans; [apply mono_section|]. destruct physical; [eapply seek_physical_keep|eapply seek_keep]; exact E1.
    - unfold align_validate in H. destruct (eval value (view_of w)) as [n|]; [|split3 H; subst; apply mono_queue].
      destruct (_ && (n =? int64_min)); [discriminate|].
      destruct (_ && _); [split3 H; subst; apply mono_queue|].
      destruct (match fill with None => _ | Some e => _ end) as [byte|]; [|split3 H; subst; apply mono_print].
      unbind H w1 E1. split3 H. subst. eapply mono_trans; [apply mono_section|eapply advance_keep; exact E1].
    - unfold skip_validate in H. destruct (eval e (view_of w)) as [x|]; [|split3 H; subst; apply mono_queue].
      unbind H w1 E1. split3 H. subst. eapply mono_trans; [apply mono_section|eapply advance_keep; exact E1].
    - unfold header_validate in H. destruct (eval e (view_of w)) as [x|]; [|split3 H; subst; apply mono_queue].
      unbind H r E1. destruct r as [m b1]. split3 H. subst. eapply header_keep. exact E1.
    - unfold incbin_validate in H. destruct (match start with None => _ | Some e => _ end) as [s|]; [|split3 H; subst; apply mono_queue].
      destruct (_ && _); [split3 H; subst; apply mono_queue|].
      destruct (match size with None => _ | Some e => _ end) as [n|]; [|split3 H; subst; apply mono_queue].
      destruct (negb _); [discriminate|]. unbind H w1 E1. split3 H. subst. eapply mono_trans; [apply mono_section|eapply advance_keep; exact E1].
    - unfold data_validate in H. unbind H w1 E1. split3 H. subst. eapply mono_trans; [|eapply advance_keep; exact E1].
      destruct (snd (f (w_table w) (view_of w))); [apply mono_queue|apply mono_refl].
    - split3 H. subst. apply mono_same; reflexivity.
    - split3 H. subst. apply arch_keep.
    - split3 H. subst. apply message_keep.
    - pose proof (cond_keep t w) as M. destruct (cond_evaluate t w) as [w1 r]. cbn [fst] in M. destruct r.
      + unbind H r E1. destruct r as [[a1 w2] b1]. split3 H. subst. eapply mono_trans; [exact M|eapply IHc1; exact E1].
      + unbind H r E1. destruct r as [[a1 w2] b1]. split3 H. subst. eapply mono_trans; [exact M|eapply IHc2; exact E1].
    - eapply IHc. exact H.
    - unbind H r E1. destruct r as [[s w1] ok]. pose proof (area_start_keep _ _ _ _ _ _ _ _ E1) as M. destruct (negb ok); [split3 H; subst; exact M|].
      unbind H r E2. destruct r as [[a2 w2] b2]. unbind H r E3. destruct r as [[a3 w3] b3]. split3 H. subst.
      eapply mono_trans; [exact M|]. eapply mono_trans; [eapply IHc; exact E2|eapply area_finish_keep; exact E3].
    - destruct (passes <? 1).
      + unbind H r E1. destruct r as [[a1 w1] b1]. unbind H w2 E2. split3 H. subst. eapply mono_trans; [eapply IHc; exact E1|eapply seek_keep; exact E2].
      + destruct (range_of minr w); [|split3 H; subst; apply mono_queue]. destruct (range_of maxr w); [|split3 H; subst; apply mono_queue].
        pose proof (file_id_keep w) as M. destruct (file_id w) as [w1 id]. cbn [fst] in M.
        assert (M1 : forall x, mono w (with_alloc w1 x)) by (intros x; eapply mono_trans; [exact M|apply mono_same; reflexivity]).
        destruct (snd (allocate _ _ _ _ _ _)) as [pos|].
        * unbind H w2 E2. destruct (in_int64 pos); [|discriminate]. unbind H r E3. destruct r as [[a3 w3] b3]. unbind H w4 E4. split3 H. subst.
          eapply mono_trans; [apply M1|]. eapply mono_trans; [apply mono_section|]. eapply mono_trans; [eapply seek_keep; exact E2|].
          eapply mono_trans; [eapply IHc; exact E3|eapply seek_keep; exact E4].
        * split3 H. subst. eapply mono_trans; [apply M1|apply mono_queue].
    - unfold instr_validate in H. destruct (fst (i (view_of w) (w_delay w))) as [l|n].
      + unbind H w1 E1. split3 H. subst. eapply mono_trans; [|eapply advance_keep; exact E1]. apply mono_same; reflexivity.
      + unbind H w1 E1. split3 H. subst. eapply mono_trans; [eapply advance_keep; exact E1|apply mono_queue].
    - unfold load_validate in H. destruct (eval value (view_of w)) as [v|]; [|split3 H; subst; apply mono_queue].
      unbind H w1 E1. pose proof (advance_keep _ _ _ E1) as M. destruct (short (s32 v)); split3 H; subst; [exact M|].
      eapply mono_trans; [exact M|apply mono_same; reflexivity].
    - unfold pool_validate in H. pose proof (file_id_keep w) as M. destruct (file_id w) as [w1 id]. cbn [fst] in M.
      set (w2 := if fst a =? -1 then w1 else _) in H.
      assert (M2 : mono w1 w2) by (unfold w2; destruct (fst a =? -1); [apply mono_refl|apply mono_same; reflexivity]).
      pose proof (pool_loop_keep passes (get_virtual (w_fm w2)) (w_pool w2) [] w2) as M3.
      destruct (pool_loop passes (get_virtual (w_fm w2)) (w_pool w2) [] w2) as [values w3]. cbn [snd] in M3.
      unbind H w4 E4. split3 H. subst. eapply mono_trans; [exact M|]. eapply mono_trans; [exact M2|]. eapply mono_trans; [exact M3|].
      eapply mono_trans; [apply (mono_same w3 (with_pool w3 [] (w_slots w3))); reflexivity|]. eapply mono_trans; [eapply advance_keep; exact E4|apply mono_same; reflexivity].
    - unbind H r1 E1. destruct r1 as [[a1 w1] b1]. unbind H r2 E2. destruct r2 as [[a2 w2] b2]. split3 H. subst.
      eapply mono_trans; [eapply IHc; exact E1|eapply object_keep; exact E2].
  Qed.

  (** ** Labels *)

  Lemma section_labels w : w_labels (next_section w) = w_labels w.
  Proof. unfold next_section. destruct (w_arch w); reflexivity. Qed.
  Lemma seek_labels w a w' : w_seek w a = ROk w' -> w_labels w' = w_labels w.
  Proof. unfold w_seek. intros H. unbind H r E. apply rok in H. subst. reflexivity. Qed.
  Lemma seek_physical_labels w a w' : w_seek_physical w a = ROk w' -> w_labels w' = w_labels w.
  Proof. unfold w_seek_physical. intros H. unbind H r E. apply rok in H. subst. reflexivity. Qed.
  Lemma advance_labels w a w' : w_advance w a = ROk w' -> w_labels w' = w_labels w.
  Proof. unfold w_advance. intros H. unbind H r E. apply rok in H. subst. reflexivity. Qed.
  Lemma file_id_labels w : w_labels (fst (file_id w)) = w_labels w.
  Proof. unfold file_id. destruct (active (w_fm w)) as [[i g]|]; reflexivity. Qed.
  Lemma pool_loop_labels passes position l : forall values w, w_labels (snd (pool_loop passes position l values w)) = w_labels w.
  Proof.
    induction l as [|e l IH]; intros values w; [reflexivity|]. cbn [pool_loop]. rewrite IH. unfold set_pool_address. destruct (pool_reach _ _); reflexivity.
  Qed.
  Lemma cond_labels t w : w_labels (fst (cond_evaluate t w)) = w_labels w.
  Proof. unfold cond_evaluate. destruct t; try reflexivity. destruct (eval e (view_of w)); reflexivity. Qed.
  Lemma area_start_labels size fill position a w a' w' b : area_start size fill position a w = ROk (a', w', b) -> w_labels w' = w_labels w.
  Proof.
    unfold area_start. intros H. unbind H r E. destruct r as [[a1 w1] ok].
    assert (M1 : w_labels w1 = w_labels w).
    { destruct position as [e|].
      - destruct (eval e (view_of w)) as [p|].
        + unbind E w0 E0. apply seek_labels in E0. split3 E. subst w1. rewrite E0. apply section_labels.
        + split3 E. subst w1. reflexivity.
      - split3 E. subst w1. reflexivity. }
    destruct (negb ok); [split3 H; subst w'; exact M1|]. destruct (eval size (view_of w1)) as [n|]; [|split3 H; subst w'; exact M1].
    destruct (n <? 0); [split3 H; subst w'; exact M1|].
    destruct fill as [e|]; [|split3 H; subst w'; exact M1].
    destruct (eval e (view_of w1)); split3 H; subst w'; exact M1.
  Qed.
  Lemma area_finish_labels shared filled old a w r a' w' b : area_finish shared filled old a w r = ROk (a', w', b) -> w_labels w' = w_labels w.
  Proof.
    unfold area_finish. intros H. set (w1 := if ar_size a <? _ then w_queue w else w) in H.
    assert (M1 : w_labels w1 = w_labels w) by (unfold w1; destruct (_ <? _); reflexivity).
    unbind H w2 E2. assert (M2 : w_labels w2 = w_labels w1) by (destruct (filled || shared); [eapply advance_labels; exact E2|apply rok in E2; subst w2; reflexivity]).
    pose proof (file_id_labels w2) as M3. destruct (file_id w2) as [w3 id]. cbn [fst] in M3. split3 H. subst w'.
    rewrite <- M1, <- M2, <- M3. destruct (_ && _); destruct (ar_size a =? 0); reflexivity.
  Qed.
  Lemma area_finish_result shared filled old a w r a' w' b : area_finish shared filled old a w r = ROk (a', w', b) ->
    b = r || negb (ar_size a =? ar_size old) || negb (get_virtual (w_fm w) - ar_pos a =? ar_content old).
  Proof.
    unfold area_finish. intros H. unbind H w2 E2. destruct (file_id w2) as [w3 id]. split3 H. auto.
  Qed.
  (** ** Positions are not before the start of the file *)

  Definition nonneg (w : world) : Prop := match active (w_fm w) with None => True | Some (_, g) => 0 <= g_virtual g - g_header g end.
  Lemma seeked_place g a p : let g' := if g_open (set_virtual g a) then stream_seek (set_virtual g a) p else set_virtual g a in g_virtual g' = a /\ g_header g' = g_header g.
  Proof. unfold stream_seek, set_virtual. cbn. destruct (g_open g), (g_fail g); split; reflexivity. Qed.
  Lemma file_seek_nonneg m i g a m' b : active m = Some (i, g) -> file_seek_virtual m i g a = ROk (m', b) ->
    m' = queue m \/ exists g', active m' = Some (i, g') /\ g_virtual g' = a /\ g_header g' = g_header g /\ 0 <= a - g_header g.
  Proof.
    intros A. unfold file_seek_virtual. destruct (negb _); [discriminate|]. destruct (Z.ltb_spec (a - g_header g) 0) as [N|N]; intros H; apply rok, duo in H; destruct H as [H _]; [left; auto|right].
    subst m'. destruct (seeked_place g a (a - g_header g)) as [Sv Sh]. eexists. split; [eapply active_put; exact A|]. auto.
  Qed.
  Lemma seek_nonneg w a w' : w_seek w a = ROk w' -> nonneg w -> nonneg w'.
  Proof.
    unfold w_seek, nonneg. intros H. unbind H r E. apply rok in H. subst w'. destruct r as [m b]. cbn [fst with_fm w_fm]. unfold seek_virtual in E. destruct (active (w_fm w)) as [[i g]|] eqn:A.
    - destruct (file_seek_nonneg _ _ _ _ _ _ A E) as [->|(g' & -> & -> & -> & N)]; [|auto]. unfold active in *. cbn. rewrite A. auto.
    - apply rok, duo in E. destruct E as [<- _]. intros _. unfold active in *. cbn. rewrite A. exact I.
  Qed.
  Lemma advance_nonneg w a w' : w_advance w a = ROk w' -> nonneg w -> nonneg w'.
  Proof.
    unfold w_advance, nonneg. intros H. unbind H r E. apply rok in H. subst w'. destruct r as [m b]. cbn [fst with_fm w_fm]. unfold advance in E. destruct (active (w_fm w)) as [[i g]|] eqn:A.
    - destruct (file_seek_nonneg _ _ _ _ _ _ A E) as [->|(g' & -> & -> & -> & N)]; [|auto]. unfold active in *. cbn. rewrite A. auto.
    - apply rok, duo in E. destruct E as [<- _]. intros _. unfold active in *. cbn. rewrite A. exact I.
  Qed.
  Lemma file_seek_physical_nonneg m i g p m' b : active m = Some (i, g) -> file_seek_physical m i g p = ROk (m', b) ->
    (m' = queue m /\ p < 0) \/ exists g', active m' = Some (i, g') /\ 0 <= g_virtual g' - g_header g'.
  Proof.
    intros A. unfold file_seek_physical. destruct (Z.ltb_spec p 0) as [N|N]; [intros H; apply rok, duo in H; destruct H as [H _]; left; auto|].
    destruct (negb _); [discriminate|]. intros H; apply rok, duo in H; destruct H as [H _]; right.
    subst m'. destruct (seeked_place g (p + g_header g) p) as [Sv Sh]. eexists. split; [eapply active_put; exact A|]. rewrite Sv, Sh. lia.
  Qed.
  Lemma seek_physical_nonneg w a w' : w_seek_physical w a = ROk w' -> nonneg w -> nonneg w'.
  Proof.
    unfold w_seek_physical, nonneg. intros H. unbind H r E. apply rok in H. subst w'. destruct r as [m b]. cbn [fst with_fm w_fm]. unfold seek_physical in E. destruct (active (w_fm w)) as [[i g]|] eqn:A.
    - destruct (file_seek_physical_nonneg _ _ _ _ _ _ A E) as [[-> _]|(g' & -> & N)]; [|auto]. unfold active in *. cbn. rewrite A. auto.
    - apply rok, duo in E. destruct E as [<- _]. intros _. unfold active in *. cbn. rewrite A. exact I.
  Qed.
  Lemma header_nonneg w h m b : header_size (w_fm w) h = ROk (m, b) -> nonneg w -> nonneg (with_fm w m).
  Proof.
    unfold header_size, nonneg. cbn [with_fm w_fm]. destruct (active (w_fm w)) as [[i g]|] eqn:A; [|discriminate]. intros H N.
    destruct (file_seek_physical_nonneg _ _ _ _ _ _ (active_put _ _ _ _ A) H) as [[-> N']|(g' & -> & N')]; [lia|auto].
  Qed.
  Lemma open_nonneg w i : nonneg (with_fm w (fst (open_file writable (w_fm w) i true))).
  Proof.
    unfold nonneg, open_file. cbn [with_fm w_fm]. set (m1 := match active (w_fm w) with Some (j, g) => put_file (w_fm w) j (stream_close g) | None => w_fm w end).
    change (f_files (set_active m1 (Some i))) with (f_files m1). destruct (nth_error (f_files m1) i) as [g|] eqn:N.
    - assert (A : active (set_active m1 (Some i)) = Some (i, g)) by (unfold active; cbn; rewrite N; reflexivity).
      unfold open_check. destruct (if _ : bool then _ else _) as [m' b] eqn:Em. cbn [fst]. pose proof (active_put _ _ _ (set_virtual (set_header g (g_header0 g)) (g_header0 g)) A) as A'.
      assert (E : active m' = Some (i, set_virtual (set_header g (g_header0 g)) (g_header0 g))).
      { match type of Em with (if ?c then _ else _) = _ => destruct c end; apply duo in Em; destruct Em as [<- _]; [exact A'|]. unfold active, queue in *. cbn in *. exact A'. }
      rewrite E. cbn. lia.
    - cbn [fst]. unfold active. cbn. rewrite N. exact I.
  Qed.
  Lemma close_nonneg w : nonneg w -> nonneg (with_fm w (close_file (w_fm w))).
  Proof. unfold nonneg, close_file. cbn [with_fm w_fm]. destruct (active (w_fm w)) as [[i g]|] eqn:A; [intros _; exact I|rewrite A; auto]. Qed.
  Lemma label_fm l v d w d' w' b : label_validate l v d w = (d', w', b) -> active (w_fm w') = active (w_fm w).
  Proof.
    unfold label_validate. destruct (negb d && l_def (w_labels w l)) eqn:E1.
    - intros H. split3 H. subst. reflexivity.
    - set (w1 := if d then w else _). assert (M1 : w_fm w1 = w_fm w) by (unfold w1; destruct d; reflexivity). destruct v as [e|].
      + destruct (eval e (view_of w1)) as [x|].
        * destruct (l_val (w_labels w1 l) =? x); intros H; split3 H; subst w'; cbn; rewrite M1; reflexivity.
        * intros H. split3 H. subst w'. cbn. rewrite M1. reflexivity.
      + destruct (l_val (w_labels w1 l) =? get_virtual (w_fm w1)) eqn:Ev;
          match goal with |- context [if ?c then (?w2, false) else _] => destruct c end; intros H; split3 H; subst w'; cbn; rewrite M1; reflexivity.
  Qed.
  Lemma object_nonneg o old w result data w' b : object_validate o old w result = ROk (data, w', b) -> nonneg w -> nonneg w'.
  Proof.
    unfold object_validate. destruct (o (w_labels w) (get_virtual (w_fm w))) as [r|]; [|discriminate]. intros H N.
    destruct (set_values (w_labels w) (ob_symbols r)) as [L1 moved]. destruct (set_values L1 (ob_sections r)) as [L2 b2]. unbind H w1 E1. split3 H. subst w1.
    apply (advance_nonneg _ _ _ E1). destruct (ob_error r); exact N.
  Qed.
  Lemma within_all c : within (fun _ => True) (fun _ => True) c.
  Proof. induction c; cbn; auto. Qed.
  Lemma validate_nonneg passes c nofile a w a' w' b : validate writable nofile passes c a w = ROk (a', w', b) -> nonneg w -> nonneg w'.
  Proof.
    apply (validate_steps writable (fun _ => True) (fun _ => True) (fun w w' => nonneg w -> nonneg w')); auto.
    - intros u u' E _. unfold nonneg. rewrite E. auto.
    - exact seek_nonneg.
    - exact seek_physical_nonneg.
    - exact advance_nonneg.
    - exact header_nonneg.
    - intros u i _. apply open_nonneg.
    - exact close_nonneg.
    - intros l v d u d' u' b0 _ E. unfold nonneg. rewrite (label_fm _ _ _ _ _ _ _ E). auto.
    - intros o old u r data u' b0 _ E. exact (object_nonneg _ _ _ _ _ _ _ E).
    - apply within_all.
  Qed.

  (** ** The table with the constructors *)

  Definition stub (l : nat) (body : src) (t unit : nat) (f : nat -> view -> list Z * bool) : src := CFunction l (CSeq body (CSeq (CLabel t None) (CData unit f))).
  (** A label that is set is where the position is. *)
  Lemma label_here l d w w' b : label_validate l None d w = (true, w', b) ->
    l_val (w_labels w' l) = get_virtual (w_fm w) /\ l_phys (w_labels w' l) = Some (get_physical (w_fm w)) /\ w_fm w' = w_fm w.
  Proof.
    unfold label_validate. destruct (negb d && l_def (w_labels w l)) eqn:E1.
    - intros H. split3 H. subst. discriminate.
    - set (w1 := if d then w else _). assert (M1 : w_fm w1 = w_fm w) by (unfold w1; destruct d; reflexivity). rewrite M1.
      destruct (Z.eqb_spec (l_val (w_labels w1 l)) (get_virtual (w_fm w))) as [Ev|Ev].
      + rewrite M1. destruct (l_phys (w_labels w1 l)) as [q|] eqn:Ep.
        * destruct (Z.eqb_spec (get_physical (w_fm w)) q) as [Eq|Eq]; intros H; split3 H; subst w'; cbn; unfold set_label; rewrite ?Nat.eqb_refl; cbn; rewrite ?Ep; repeat split; congruence.
        * intros H; split3 H; subst w'; cbn; unfold set_label; rewrite ?Nat.eqb_refl; cbn; auto.
      + set (w2 := with_labels w1 _). assert (M2 : w_fm w2 = w_fm w) by exact M1. rewrite M2.
        assert (V2 : l_val (w_labels w2 l) = get_virtual (w_fm w)) by (cbn; unfold set_label; rewrite Nat.eqb_refl; reflexivity).
        destruct (l_phys (w_labels w2 l)) as [q|] eqn:Ep.
        * destruct (Z.eqb_spec (get_physical (w_fm w)) q) as [Eq|Eq]; intros H; split3 H; subst w'; [rewrite V2, Ep; repeat split; congruence|].
          cbn -[w2]. unfold set_label at 1 2. rewrite Nat.eqb_refl. cbn -[w2]. auto.
        * intros H; split3 H; subst w'. cbn -[w2]. unfold set_label at 1 2. rewrite Nat.eqb_refl. cbn -[w2]. auto.
  Qed.
  Lemma table_any l body t u f passes nofile a w a' w' b : fixed_size f -> validate writable nofile passes (stub l body t u f) a w = ROk (a', w', b) ->
    forall t0 n, table_end (stub l body t u f) a' = Some (t0, n) -> t0 = t /\ n = table_size u f /\
    exists w1, nonneg w1 = nonneg w1 /\ (nonneg w -> nonneg w1) /\ l_val (w_labels w' t) = get_virtual (w_fm w1) /\ l_phys (w_labels w' t) = Some (get_physical (w_fm w1)) /\
      (exists q, w_advance (if q : bool then w_queue w1 else w1) n = ROk w').
  Proof.
    intros Fx. unfold stub. cbn [validate ann table_end]. intros H t0 n. destruct (label_validate l None (fst a) w) as [[d1 w1] b1] eqn:El.
    unbind H r E. destruct r as [[a2 w2] b2]. split3 H. subst a' w'. unbind E r1 E1. destruct r1 as [[a3 w3] b3]. unbind E r2 E2. destruct r2 as [[a4 w4] b4]. split3 E. subst a2 w4.
    unbind E2 r3 E3. destruct r3 as [[d5 w5] b5]. unbind E2 r4 E4. destruct r4 as [[a6 w6] b6]. split3 E2. subst a4 w6. cbn [fst snd]. destruct d5; [|discriminate]. intros Ht. injection Ht as <- <-.
    split; [reflexivity|]. split; [reflexivity|]. apply rok in E3. destruct (label_here _ _ _ _ _ E3) as (V & P & Fm).
    exists w5. split; [reflexivity|]. unfold data_validate in E4. unbind E4 w7 E7. split3 E4. subst w7.
    split. { intros N. unfold nonneg. rewrite Fm. apply (validate_nonneg _ _ _ _ _ _ _ _ E1). unfold nonneg. rewrite (label_fm _ _ _ _ _ _ _ El). exact N. }
    assert (Lb : w_labels w2 = w_labels w5). { unfold w_advance in E7. unbind E7 r E8. apply rok in E7. rewrite <- E7. cbn [with_fm w_labels]. destruct (snd (f (w_table w5) (view_of w5))); reflexivity. }
    rewrite Lb, V, P, Fm. split; [reflexivity|]. split; [reflexivity|]. exists (snd (f (w_table w5) (view_of w5))). rewrite <- E7. f_equal. unfold table_size. rewrite (Fx (w_table w5) (view_of w5)). reflexivity.
  Qed.
  Lemma table_moved w (q : bool) n w' v p : w_advance (if q then w_queue w else w) n = ROk w' -> v = get_virtual (w_fm w) -> p = get_physical (w_fm w) ->
    0 <= p -> 0 <= s64 (v + n) - (v - p) -> get_virtual (w_fm w') = s64 (v + n).
  Proof.
    intros H Ev Ep P C. unfold get_physical in Ep. unfold get_virtual in Ev. destruct (active (w_fm w)) as [[i g]|] eqn:A; [|lia].
    assert (A' : active (w_fm (if q then w_queue w else w)) = Some (i, g)) by (destruct q; exact A).
    unfold w_advance in H. unbind H r E. apply rok in H. subst w'. destruct r as [m b]. cbn [fst with_fm w_fm]. unfold advance in E. rewrite A' in E.
    unfold file_seek_virtual in E. destruct (negb _); [discriminate|]. rewrite <- Ev in E. destruct (Z.ltb_spec (s64 (v + n) - g_header g) 0) as [N|N]; [lia|].
    apply rok, duo in E. destruct E as [<- _]. unfold get_virtual. rewrite (active_put _ _ _ _ A'). apply seeked_place.
  Qed.
  Lemma table_gone w n w' : w_advance w n = ROk w' -> has_error w' = false -> nonneg w ->
    0 <= get_physical (w_fm w) /\ 0 <= s64 (get_virtual (w_fm w) + n) - (get_virtual (w_fm w) - get_physical (w_fm w)).
  Proof.
    unfold w_advance, nonneg, get_physical, get_virtual. intros H. unbind H r E. apply rok in H. subst w'. destruct r as [m b]. cbn [fst]. unfold advance in E.
    destruct (active (w_fm w)) as [[i g]|] eqn:A.
    - unfold file_seek_virtual in E. destruct (negb _); [discriminate|]. destruct (Z.ltb_spec (s64 (g_virtual g + n) - g_header g) 0) as [N|N]; apply rok, duo in E; destruct E as [<- _]; [discriminate|].
      intros _ P. lia.
    - apply rok, duo in E. destruct E as [<- _]. discriminate.
  Qed.
  (** The label command that reports no change *)
  Lemma label_still l v d w d' w' : label_validate l v d w = (d', w', false) -> has_error w' = false -> w' = w /\ d = true /\ d' = true.
  Proof.
    unfold label_validate. destruct d; cbn [negb andb].
    - destruct v as [e|].
      + destruct (eval e (view_of w)) as [x|].
        * destruct (l_val (w_labels w l) =? x); intros H; split3 H; [auto|discriminate].
        * intros H. split3 H. subst. intros B. unfold has_error in B. cbn in B. rewrite orb_true_r in B. discriminate.
      + destruct (l_val (w_labels w l) =? get_virtual (w_fm w)).
        * destruct (match l_phys (w_labels w l) with Some q => _ =? q | None => false end); intros H; split3 H; [auto|discriminate].
        * match goal with |- context [if ?c then (?w2, false) else _] => destruct c end; intros H; split3 H; discriminate.
    - destruct (l_def (w_labels w l)) eqn:D.
      + intros H. split3 H. subst. discriminate.
      + destruct v as [e|].
        * match goal with |- context [eval e ?x] => destruct (eval e x) end; [|intros H; split3 H; discriminate].
          match goal with |- context [if ?c then (?w2, false) else _] => destruct c end; intros H; split3 H; discriminate.
        * match goal with |- context [if ?c then (?w2, false) else _] => destruct c end;
          match goal with |- context [if ?c then (?w2, false) else _] => destruct c end; intros H; split3 H; discriminate.
  Qed.
  Lemma no_error w w' : good w -> mono w w' -> has_error w' = false -> has_error w = false.
  Proof. intros G M B. exact (proj1 (proj2 (proj2 (M G))) B). Qed.

  (** Labels that are not reported to have moved *)
  Lemma set_values_still l : forall L, snd (set_values L l) = false -> fst (set_values L l) = L /\ Forall (fun x => l_val (L (fst x)) = snd x) l.
  Proof.
    induction l as [|[j v] l IH]; intros L; [split; [reflexivity|constructor]|]. cbn [set_values].
    destruct (Z.eqb_spec (l_val (L j)) v) as [E|E].
    - specialize (IH L). destruct (set_values L l) as [L2 b2]. cbn [fst snd orb] in *. intros H. destruct (IH H) as [-> F]. split; [reflexivity|]. constructor; assumption.
    - destruct (set_values _ l). discriminate.
  Qed.
  Lemma set_values_same l : forall L, Forall (fun x => l_val (L (fst x)) = snd x) l -> set_values L l = (L, false).
  Proof.
    induction l as [|[j v] l IH]; intros L F; [reflexivity|]. cbn [set_values]. pose proof (Forall_inv F) as E. cbn [fst snd] in E. rewrite E, Z.eqb_refl.
    rewrite (IH L (Forall_inv_tail F)). reflexivity.
  Qed.
  (** An object that reports no change *)
  Lemma object_still o old w result data w' : good w -> object_validate o old w result = ROk (data, w', false) -> has_error w' = false ->
    (forall r, o (w_labels w) (get_virtual (w_fm w)) = Some r -> Forall (fun x => l_val (w_labels w (fst x)) = snd x) (ob_sections r)) ->
    result = false /\ exists r, o (w_labels w) (get_virtual (w_fm w)) = Some r /\ ob_error r = false /\ data = ob_data r /\
      Forall (fun x => l_val (w_labels w (fst x)) = snd x) (ob_symbols r ++ ob_sections r) /\ w_advance w (ob_size r) = ROk w'.
  Proof.
    intros G. unfold object_validate. destruct (o (w_labels w) (get_virtual (w_fm w))) as [r|] eqn:Eo; [|discriminate]. intros H B Kn. specialize (Kn r eq_refl).
    pose proof (set_values_still (ob_symbols r) (w_labels w)) as D1. destruct (set_values (w_labels w) (ob_symbols r)) as [L1 moved]. cbn [fst snd] in D1.
    destruct (set_values L1 (ob_sections r)) as [L2 b2] eqn:E2. unbind H w1 E1. split3 H. subst w1 data.
    destruct moved; [discriminate|]. destruct (D1 eq_refl) as [-> F]. rewrite (set_values_same _ _ Kn) in E2. apply duo in E2. destruct E2 as [<- _].
    destruct result; [rewrite orb_true_r in *; discriminate|]. split; [reflexivity|].
    exists r. split; [reflexivity|]. assert (Ew : with_labels w (w_labels w) = w) by (destruct w; reflexivity). rewrite Ew in E1.
    destruct (ob_error r) eqn:Er.
    - exfalso. pose proof (no_error _ _ (proj1 (mono_queue w G)) (advance_keep _ _ _ E1) B). discriminate.
    - split; [reflexivity|]. split; [reflexivity|]. split; [apply Forall_app; split; assumption|exact E1].
  Qed.
  (** The sections of an object behind a function that has not changed *)
  Lemma sections_known passes nofile c o a w a' w' : plain o \/ tabled c /\ sectioned o -> nonneg w -> validate writable nofile passes c a w = ROk (a', w', false) ->
    has_error w' = false -> w_labels w' = w_labels w -> landed (w_labels w) o (table_end c a) ->
    forall r, o (w_labels w') (get_virtual (w_fm w')) = Some r -> Forall (fun x => l_val (w_labels w' (fst x)) = snd x) (ob_sections r).
  Proof.
    intros [Pl|[T S]] N E B Lb Ld r Er; [rewrite (Pl _ _ _ Er); constructor|].
    inversion T as [l body t u f Fx]; subst c. change (CFunction l (CSeq body (CSeq (CLabel t None) (CData u f)))) with (stub l body t u f) in *.
    assert (D : table_end (stub l body t u f) a = Some (t, table_size u f) /\ table_end (stub l body t u f) a' = Some (t, table_size u f)).
    { unfold stub in *. cbn [validate ann table_end] in *. match type of E with context [label_validate l None ?x w] => destruct (label_validate l None x w) as [[d1 w1] b1] eqn:El in E end.
      unbind E r0 E0. destruct r0 as [[a2 w2] b2]. split3 E. subst a' w'. unbind E0 r1 E1. destruct r1 as [[a3 w3] b3]. unbind E0 r2 E2. destruct r2 as [[a4 w4] b4]. split3 E0. subst a2 w4.
      unbind E2 r3 E3. destruct r3 as [[d5 w5] b5]. unbind E2 r4 E4. destruct r4 as [[a6 w6] b6]. split3 E2. subst a4 w6. cbn [fst snd].
      assert (B5 : b5 = false /\ has_error w5 = false).
      { split; [destruct b1, b2, b3, b4, b5, b6; cbn in *; congruence|]. unfold data_validate in E4. unbind E4 w7 E7. split3 E4. subst w7.
        destruct (snd (f (w_table w5) (view_of w5))); unfold w_advance in E7; unbind E7 r9 E9; apply rok in E7; subst w2; destruct r9 as [m9 b9]; unfold advance in E9; cbn [fst] in B; cbn [with_fm w_fm w_queue] in E9.
        - destruct (active (queue (w_fm w5))) as [[i g]|].
          + unfold file_seek_virtual in E9. destruct (negb _); [discriminate|]. destruct (_ <? 0); apply rok, duo in E9; destruct E9 as [<- _]; discriminate.
          + apply rok, duo in E9; destruct E9 as [<- _]; discriminate.
        - destruct (active (w_fm w5)) as [[i g]|].
          + unfold file_seek_virtual in E9. destruct (negb _); [discriminate|]. destruct (_ <? 0); apply rok, duo in E9; destruct E9 as [<- _]; [discriminate|exact B].
          + apply rok, duo in E9; destruct E9 as [<- _]; discriminate. }
      destruct B5 as [-> B5]. apply rok in E3. destruct (label_still _ _ _ _ _ _ E3 B5) as (_ & D1 & D2). rewrite D1, D2. auto. }
    destruct D as [D D']. destruct (table_any _ _ _ _ _ _ _ _ _ _ _ _ Fx E _ _ D') as (_ & _ & w1 & _ & N1 & V & P & q & A).
    assert (Q : q = false).
    { destruct q; [|reflexivity]. exfalso. unfold w_advance in A. unbind A r9 E9. apply rok in A. subst w'. destruct r9 as [m9 b9]. unfold advance in E9. cbn [fst] in B. cbn [with_fm w_fm w_queue] in E9.
      destruct (active (queue (w_fm w1))) as [[i g]|].
      - unfold file_seek_virtual in E9. destruct (negb _); [discriminate|]. destruct (_ <? 0); apply rok, duo in E9; destruct E9 as [<- _]; discriminate.
      - apply rok, duo in E9; destruct E9 as [<- _]; discriminate. }
    subst q. destruct (table_gone _ _ _ A B (N1 N)) as [P0 C0]. rewrite (table_moved w1 false _ _ _ _ A eq_refl eq_refl P0 C0) in Er.
    rewrite D in Ld. cbn [landed] in Ld. rewrite Lb in *. exact (Ld _ _ V P P0 C0 _ _ Er).
  Qed.

  Lemma object_result o old w data w' : object_validate o old w true = ROk (data, w', false) -> False.
  Proof.
    unfold object_validate. destruct (o (w_labels w) (get_virtual (w_fm w))) as [r|]; [|discriminate]. destruct (set_values (w_labels w) (ob_symbols r)) as [L1 moved].
    destruct (set_values L1 (ob_sections r)) as [L2 b2]. intros H. unbind H w1 E1. split3 H. rewrite orb_true_r in *. discriminate.
  Qed.
  Lemma cond_nonneg t w : nonneg w -> nonneg (fst (cond_evaluate t w)).
  Proof. intros N. unfold cond_evaluate. destruct t; try exact N. destruct (eval e (view_of w)); exact N. Qed.
  Lemma section_nonneg w : nonneg w -> nonneg (next_section w).
  Proof. unfold next_section. destruct (w_arch w); auto. Qed.
  Lemma file_id_active w : active (w_fm (fst (file_id w))) = active (w_fm w).
  Proof. unfold file_id. destruct (active (w_fm w)) as [[i g]|] eqn:A; [exact A|]. unfold active in *. exact A. Qed.
  Lemma area_start_nonneg size fill position a w a' w' b : area_start size fill position a w = ROk (a', w', b) -> nonneg w -> nonneg w'.
  Proof.
    unfold area_start. intros H N. unbind H r E. destruct r as [[a1 w1] ok].
    assert (M1 : nonneg w1).
    { destruct position as [e|].
      - destruct (eval e (view_of w)) as [p|].
        + unbind E w0 E0. split3 E. subst w1. apply (seek_nonneg _ _ _ E0). apply section_nonneg, N.
        + split3 E. subst w1. exact N.
      - split3 E. subst w1. exact N. }
    destruct (negb ok); [split3 H; subst w'; exact M1|]. destruct (eval size (view_of w1)) as [n|]; [|split3 H; subst w'; exact M1].
    destruct (n <? 0); [split3 H; subst w'; exact M1|].
    destruct fill as [e|]; [|split3 H; subst w'; exact M1].
    destruct (eval e (view_of w1)); split3 H; subst w'; exact M1.
  Qed.

  Lemma validate_still passes c : forall nofile a w a' w', well_formed files c -> good w -> nonneg w -> flags (w_labels w) c a -> validate writable nofile passes c a w = ROk (a', w', false) -> has_error w' = false ->
    w_labels w' = w_labels w.
  Proof.
    induction c; intros nofile a w a' w' Wf G N Fl H B; cbn [validate ann AsmSpec.well_formed flags] in *.
    - split3 H. subst. reflexivity.
    - unbind H r1 E1. destruct r1 as [[a1 w1] b1]. unbind H r2 E2. destruct r2 as [[a2 w2] b2]. split3 H. subst.
      destruct b1; [discriminate|]. destruct b2; [discriminate|].
      pose proof (validate_keep _ _ _ _ _ _ _ _ E1) as M1. pose proof (validate_keep _ _ _ _ _ _ _ _ E2) as M2.
      destruct (M1 G) as (G1 & _). destruct Wf as [Wf1 Wf2]. destruct Fl as [Fl1 Fl2].
      assert (L1 : w_labels w1 = w_labels w) by (eapply IHc1; [exact Wf1|exact G|exact N|exact Fl1|exact E1|exact (no_error _ _ G1 M2 B)]).
      rewrite <- L1 in Fl2. rewrite (IHc2 _ _ _ _ _ Wf2 G1 (validate_nonneg _ _ _ _ _ _ _ _ E1 N) Fl2 E2 B). exact L1.
    - apply rok in H. destruct (label_still _ _ _ _ _ _ H B) as [-> _]. reflexivity.
    - match type of H with context [label_validate ?p ?q ?r ?s] => destruct (label_validate p q r s) as [[d w1] b1] eqn:E end. unbind H r2 E2. destruct r2 as [[a2 w2] b2]. split3 H. subst.
      destruct b1; [discriminate|]. destruct b2; [discriminate|].
      pose proof (label_keep _ _ _ _ _ _ _ E) as M1. pose proof (validate_keep _ _ _ _ _ _ _ _ E2) as M2. destruct (M1 G) as (G1 & _).
      destruct (label_still _ _ _ _ _ _ E (no_error _ _ G1 M2 B)) as [Ew _]. subst w1. exact (IHc _ _ _ _ _ Wf G N (proj2 Fl) E2 B).
    - split3 H. subst. unfold open_validate. destruct nofile; [reflexivity|]. apply section_labels.
    - split3 H. subst. unfold close_validate. destruct nofile; [reflexivity|]. apply section_labels.
    - unfold org_validate in H. destruct (eval e (view_of w)) as [x|]; [|split3 H; subst; reflexivity].
      unbind H w1 E1. split3 H. subst. rewrite <- (section_labels w). destruct physical; [eapply seek_physical_labels|eapply seek_labels]; exact E1.
    - unfold align_validate in H. destruct (eval value (view_of w)) as [n|]; [|split3 H; subst; reflexivity].
      destruct (_ && (n =? int64_min)); [discriminate|].
      destruct (_ && _); [split3 H; subst; reflexivity|].
      destruct (match fill with None => _ | Some e => _ end) as [byte|]; [|split3 H; subst; reflexivity].
      unbind H w1 E1. split3 H. subst. rewrite <- (section_labels w). eapply advance_labels; exact E1.
    - unfold skip_validate in H. destruct (eval e (view_of w)) as [x|]; [|split3 H; subst; reflexivity].
      unbind H w1 E1. split3 H. subst. rewrite <- (section_labels w). eapply advance_labels; exact E1.
    - unfold header_validate in H. destruct (eval e (view_of w)) as [x|]; [|split3 H; subst; reflexivity].
      unbind H r E1. destruct r as [m b1]. split3 H. subst. reflexivity.
    - unfold incbin_validate in H. destruct (match start with None => _ | Some e => _ end) as [s|]; [|split3 H; subst; reflexivity].
      destruct (_ && _); [split3 H; subst; reflexivity|].
      destruct (match size with None => _ | Some e => _ end) as [n|]; [|split3 H; subst; reflexivity].
      destruct (negb _); [discriminate|]. unbind H w1 E1. split3 H. subst. rewrite <- (section_labels w). eapply advance_labels; exact E1.
    - unfold data_validate in H. unbind H w1 E1. split3 H. subst. rewrite (advance_labels _ _ _ E1).
      destruct (snd (f (w_table w) (view_of w))); reflexivity.
    - split3 H. subst. reflexivity.
    - split3 H. subst. reflexivity.
    - split3 H. subst. unfold message_validate. destruct (text (view_of w)); [destruct is_error|]; reflexivity.
    - pose proof (cond_keep t w) as M. pose proof (cond_labels t w) as ML. pose proof (cond_nonneg t w N) as N1. destruct (cond_evaluate t w) as [w1 r]. cbn [fst] in M, ML, N1. destruct (M G) as (G1 & _). destruct Fl as [Fl1 Fl2]. rewrite <- ML in Fl1, Fl2.
      destruct r.
      + unbind H r E1. destruct r as [[a1 w2] b1]. split3 H. subst. destruct b1; [rewrite orb_true_r in *; discriminate|]. rewrite (IHc1 _ _ _ _ _ (proj1 Wf) G1 N1 Fl1 E1 B). exact ML.
      + unbind H r E1. destruct r as [[a1 w2] b1]. split3 H. subst. destruct b1; [rewrite orb_true_r in *; discriminate|]. rewrite (IHc2 _ _ _ _ _ (proj2 Wf) G1 N1 Fl2 E1 B). exact ML.
    - eapply IHc; [exact Wf|exact G|exact N|exact Fl|exact H|exact B].
    - unbind H r E1. destruct r as [[s w1] ok]. pose proof (area_start_keep _ _ _ _ _ _ _ _ E1) as M. pose proof (area_start_labels _ _ _ _ _ _ _ _ E1) as ML.
      destruct (negb ok); [split3 H; subst; exact ML|].
      unbind H r E2. destruct r as [[a2 w2] b2]. unbind H r E3. destruct r as [[a3 w3] b3]. split3 H. subst.
      pose proof (area_finish_result _ _ _ _ _ _ _ _ _ E3) as R. destruct b2; [discriminate|]. destruct (M G) as (G1 & _).
      pose proof (validate_keep _ _ _ _ _ _ _ _ E2 G1) as (G2 & _).
      rewrite (area_finish_labels _ _ _ _ _ _ _ _ _ E3), <- ML. eapply IHc; [exact Wf|exact G1|exact (area_start_nonneg _ _ _ _ _ _ _ _ E1 N)|rewrite ML; exact Fl|exact E2|].
      exact (no_error _ _ G2 (area_finish_keep _ _ _ _ _ _ _ _ _ E3) B).
    - destruct (passes <? 1).
      + unbind H r E1. destruct r as [[a1 w1] b1]. unbind H w2 E2. split3 H. discriminate.
      + destruct (range_of minr w); [|split3 H; subst; reflexivity]. destruct (range_of maxr w); [|split3 H; subst; reflexivity].
        pose proof (file_id_keep w) as M. pose proof (file_id_labels w) as ML. pose proof (file_id_active w) as Na. destruct (file_id w) as [w1 id]. cbn [fst] in M, ML, Na.
        assert (M1 : forall x, mono w (with_alloc w1 x)) by (intros x; eapply mono_trans; [exact M|apply mono_same; reflexivity]).
        destruct (snd (allocate _ _ _ _ _ _)) as [pos|]; [|split3 H; subst; exact ML].
        unbind H w2 E2. destruct (in_int64 pos); [|discriminate]. unbind H r E3. destruct r as [[a3 w3] b3]. unbind H w4 E4. split3 H. subst.
        destruct b3; [discriminate|]. rewrite (seek_labels _ _ _ E4).
        assert (M2 : mono w w2) by (eapply mono_trans; [apply M1|]; eapply mono_trans; [apply mono_section|]; eapply seek_keep; exact E2).
        destruct (M2 G) as (G2 & _). pose proof (validate_keep _ _ _ _ _ _ _ _ E3 G2) as (G3 & _).
        assert (L2 : w_labels w2 = w_labels w) by (rewrite (seek_labels _ _ _ E2), section_labels; exact ML).
        assert (N2 : nonneg w2) by (apply (seek_nonneg _ _ _ E2), section_nonneg; unfold nonneg; cbn [with_alloc w_fm]; rewrite Na; exact N).
        rewrite <- L2 in Fl. rewrite (IHc _ _ _ _ _ Wf G2 N2 Fl E3 (no_error _ _ G3 (seek_keep _ _ _ E4) B)). exact L2.
    - unfold instr_validate in H. destruct (fst (i (view_of w) (w_delay w))) as [l|n].
      + unbind H w1 E1. split3 H. subst. apply (advance_labels _ _ _ E1).
      + unbind H w1 E1. split3 H. subst. apply (advance_labels _ _ _ E1).
    - unfold load_validate in H. destruct (eval value (view_of w)) as [v|]; [|split3 H; subst; reflexivity].
      unbind H w1 E1. pose proof (advance_labels _ _ _ E1) as M. destruct (short (s32 v)); split3 H; subst; exact M.
    - unfold pool_validate in H. pose proof (file_id_labels w) as M. destruct (file_id w) as [w1 id]. cbn [fst] in M.
      set (w2 := if fst a =? -1 then w1 else _) in H.
      assert (M2 : w_labels w2 = w_labels w1) by (unfold w2; destruct (fst a =? -1); reflexivity).
      pose proof (pool_loop_labels passes (get_virtual (w_fm w2)) (w_pool w2) [] w2) as M3.
      destruct (pool_loop passes (get_virtual (w_fm w2)) (w_pool w2) [] w2) as [values w3]. cbn [snd] in M3.
      unbind H w4 E4. split3 H. subst. cbn [with_alloc w_labels]. rewrite (advance_labels _ _ _ E4). cbn [with_pool w_labels]. congruence.
    - unbind H r1 E1. destruct r1 as [[a1 w1] b1]. unbind H r2 E2. destruct r2 as [[a2 w2] b2]. split3 H. subst. destruct Wf as (Wf & _ & Pl). destruct Fl as [Fl Ld].
      pose proof (validate_keep _ _ _ _ _ _ _ _ E1 G) as (G1 & _). destruct b1; [exfalso; exact (object_result _ _ _ _ _ E2)|].
      assert (B1 : has_error w1 = false) by exact (no_error _ _ G1 (object_keep _ _ _ _ _ _ _ E2) B).
      assert (L1 : w_labels w1 = w_labels w) by (eapply IHc; [exact Wf|exact G|exact N|exact Fl|exact E1|exact B1]).
      destruct (object_still _ _ _ _ _ _ G1 E2 B (sections_known _ _ _ _ _ _ _ _ Pl N E1 B1 L1 Ld)) as (_ & r & _ & _ & _ & _ & Ea).
      rewrite (advance_labels _ _ _ Ea). exact L1.
  Qed.
End Keep.

(** ** Definition flags, and literals *)

Section Flags.
  Variable writable : nat -> bool.

  (** A command that has set its flag has defined its label. *)
  Lemma table_init c : table_end c (init c) = None.
  Proof.
    destruct c; try reflexivity. destruct c; try reflexivity. destruct c2; try reflexivity. destruct c2_1; try reflexivity. match goal with o : option _ |- _ => destruct o end; try reflexivity.
    destruct c2_2; reflexivity.
  Qed.
  Lemma flags_init L c : flags L c (init c).
  Proof.
    induction c; cbn [flags init fst snd]; auto; try discriminate; try (split; [discriminate|assumption]).
    split; [assumption|]. rewrite table_init. exact I.
  Qed.
  Lemma table_has_label c a t n : table_end c a = Some (t, n) -> table_label c t.
  Proof.
    destruct c; try discriminate. destruct c; try discriminate. destruct c2; try discriminate. destruct c2_1; try discriminate. match goal with o : option _ |- _ => destruct o end; try discriminate.
    destruct c2_2; try discriminate. cbn. destruct (fst (snd (snd a))); [|discriminate]. intros H. injection H as <- _. reflexivity.
  Qed.
  Lemma landed_same L L' c o a : (forall k, (exists j, of_section o j) /\ table_label c k \/ of_section o k -> L' k = L k) ->
    landed L o (table_end c a) -> landed L' o (table_end c a).
  Proof.
    intros H. destruct (table_end c a) as [[t n]|] eqn:E; [|auto]. cbn [landed]. intros F v p Ev Ep P C L0 r Er.
    destruct (ob_sections r) as [|[k x] l] eqn:Es; [constructor|].
    assert (S0 : forall y z, In (y, z) ((k, x) :: l) -> of_section o y) by (intros y z Hy; exists L0, (s64 (v + n)), r, z; rewrite Es; auto).
    assert (Ht : L' t = L t) by (apply H; left; split; [exists k; apply (S0 k x); left; reflexivity|exact (table_has_label _ _ _ _ E)]).
    rewrite Ht in Ev, Ep. pose proof (F v p Ev Ep P C L0 r Er) as Q. rewrite Es in Q. apply Forall_forall. intros [y z] Hy.
    rewrite Forall_forall in Q. cbn [fst snd]. rewrite (H y (or_intror (S0 y z Hy))). exact (Q (y, z) Hy).
  Qed.
  Lemma flags_mono L L' c : (forall l, l_def (L l) = true -> l_def (L' l) = true) -> (forall k, owns c k -> L' k = L k) -> forall a, flags L c a -> flags L' c a.
  Proof.
    intros H. induction c; cbn [flags owns]; intros O a F; auto; destruct F as [F1 F2]; split; auto.
    revert F2. apply landed_same. intros k Hk. apply O. destruct Hk; auto.
  Qed.
  Lemma set_values_other k l : forall L, ~ In k (map fst l) -> fst (set_values L l) k = L k.
  Proof.
    induction l as [|[j v] l IH]; intros L N; [reflexivity|]. cbn [set_values map fst In] in *.
    destruct (l_val (L j) =? v); [specialize (IH L)|specialize (IH (set_label L j (mkLab (l_def (L j)) v (l_phys (L j)))))];
      match goal with |- context [set_values ?X l] => destruct (set_values X l) as [L2 b2] end; cbn [fst] in *; rewrite IH by tauto; [reflexivity|].
    unfold set_label. destruct (Nat.eqb_spec k j); [subst; tauto|reflexivity].
  Qed.
  Lemma set_values_all l : forall L, NoDup (map fst l) -> Forall (fun x => l_val (fst (set_values L l) (fst x)) = snd x) l.
  Proof.
    induction l as [|[j v] l IH]; intros L N; [constructor|]. cbn [set_values map fst] in *. apply NoDup_cons_iff in N. destruct N as [N1 N2].
    set (L1 := if l_val (L j) =? v then L else set_label L j (mkLab (l_def (L j)) v (l_phys (L j)))).
    assert (E1 : (if l_val (L j) =? v then (L, false) else (set_label L j (mkLab (l_def (L j)) v (l_phys (L j))), true)) = (L1, negb (l_val (L j) =? v))) by (unfold L1; destruct (l_val (L j) =? v); reflexivity).
    assert (V1 : l_val (L1 j) = v). { unfold L1. destruct (Z.eqb_spec (l_val (L j)) v); [assumption|]. unfold set_label. rewrite Nat.eqb_refl. reflexivity. }
    rewrite E1. pose proof (IH L1 N2) as Q. pose proof (set_values_other j l L1 N1) as O. destruct (set_values L1 l) as [L2 b2]. cbn [fst snd] in *.
    constructor; [cbn; congruence|exact Q].
  Qed.
  Lemma label_other l v d w d' w' b k : k <> l -> label_validate l v d w = (d', w', b) -> w_labels w' k = w_labels w k.
  Proof.
    intros Nk. assert (N : (k =? l)%nat = false) by (apply Nat.eqb_neq; exact Nk). unfold label_validate. destruct (negb d && l_def (w_labels w l)) eqn:E1.
    - intros H. split3 H. subst. reflexivity.
    - set (w1 := if d then w else _). assert (M1 : w_labels w1 k = w_labels w k) by (unfold w1; destruct d; [reflexivity|]; cbn; unfold set_label; rewrite N; reflexivity). destruct v as [e|].
      + destruct (eval e (view_of w1)) as [x|].
        * destruct (l_val (w_labels w1 l) =? x); intros H; split3 H; subst w'; cbn -[w1]; unfold set_label; rewrite ?N; exact M1.
        * intros H. split3 H. subst w'. exact M1.
      + destruct (l_val (w_labels w1 l) =? get_virtual (w_fm w1)) eqn:Ev;
          match goal with |- context [if ?c then (?w2, false) else _] => destruct c end; intros H; split3 H; subst w'; cbn -[w1]; unfold set_label; rewrite ?N; exact M1.
  Qed.
  Lemma object_labels o old w result data w' b : object_validate o old w result = ROk (data, w', b) ->
    exists r, o (w_labels w) (get_virtual (w_fm w)) = Some r /\ w_labels w' = fst (set_values (fst (set_values (w_labels w) (ob_symbols r))) (ob_sections r)).
  Proof.
    unfold object_validate. destruct (o (w_labels w) (get_virtual (w_fm w))) as [r|] eqn:Eo; [|discriminate]. intros H. exists r. split; [reflexivity|].
    destruct (set_values (w_labels w) (ob_symbols r)) as [L1 moved]. cbn [fst]. destruct (set_values L1 (ob_sections r)) as [L2 b2]. cbn [fst]. unbind H w1 E1. split3 H. subst w1.
    rewrite (advance_labels _ _ _ E1). destruct (ob_error r); reflexivity.
  Qed.
  Lemma not_given l k : (forall v, ~ In (k, v) l) -> ~ In k (map (@fst nat Z) l).
  Proof. intros H I0. apply in_map_iff in I0. destruct I0 as ([j v] & E & I0). cbn in E. subst j. exact (H v I0). Qed.
  Lemma object_other o old w result data w' b k : ~ gives o k -> object_validate o old w result = ROk (data, w', b) -> w_labels w' k = w_labels w k.
  Proof.
    intros N H. destruct (object_labels _ _ _ _ _ _ _ H) as (r & Er & ->).
    rewrite !set_values_other; [reflexivity| |]; apply not_given; intros v I0; apply N; exists (w_labels w), (get_virtual (w_fm w)), r, v; (split; [exact Er|]); apply in_app_iff; auto.
  Qed.
  Lemma sets_within c k : ~ sets c k -> within (fun l => k <> l) (fun o => ~ gives o k) c.
  Proof. induction c; cbn [sets within]; intros N; try exact I; try tauto; auto. Qed.
  (** A command leaves the labels alone that it does not set. *)
  Lemma validate_other passes c nofile a w a' w' b k : ~ sets c k -> validate writable nofile passes c a w = ROk (a', w', b) -> w_labels w' k = w_labels w k.
  Proof.
    intros N. apply (validate_steps writable (fun l => k <> l) (fun o => ~ gives o k) (fun w w' => w_labels w' k = w_labels w k)); cbv beta; try reflexivity; [congruence|congruence| | | | | |].
    - intros u x u' E. rewrite (seek_labels _ _ _ E). reflexivity.
    - unfold w_seek_physical. intros u x u' E. unbind E r E1. apply rok in E. subst u'. reflexivity.
    - intros u x u' E. rewrite (advance_labels _ _ _ E). reflexivity.
    - intros l v d u d' u' b0 Nk. apply label_other. exact Nk.
    - intros o old u r data u' b0 Nk. apply object_other. exact Nk.
    - apply sets_within, N.
  Qed.

  Lemma label_flag l v d w d' w' b : label_validate l v d w = (d', w', b) -> (d = true -> l_def (w_labels w l) = true) ->
    d' = true -> l_def (w_labels w' l) = true.
  Proof.
    unfold label_validate. intros H F Hd. destruct (negb d && l_def (w_labels w l)) eqn:E1.
    - split3 H. subst d'. subst d. discriminate.
    - set (w1 := if d then w else _) in H.
      assert (M1 : l_def (w_labels w1 l) = true).
      { unfold w1. destruct d; [auto|]. cbn. unfold set_label. rewrite Nat.eqb_refl. reflexivity. }
      destruct v as [e|].
      + destruct (eval e (view_of w1)) as [x|].
        * destruct (l_val (w_labels w1 l) =? x); split3 H; subst w'; [exact M1|]. cbn. unfold set_label. rewrite Nat.eqb_refl. exact M1.
        * split3 H. subst w'. exact M1.
      + destruct (l_val (w_labels w1 l) =? get_virtual (w_fm w1)) eqn:Ev.
        * destruct (match l_phys (w_labels w1 l) with Some q => _ =? q | None => false end); split3 H; subst w'; [exact M1|].
          cbn. unfold set_label. rewrite Nat.eqb_refl. exact M1.
        * set (w2 := with_labels w1 _) in H. assert (M2 : l_def (w_labels w2 l) = true) by (cbn; unfold set_label; rewrite Nat.eqb_refl; exact M1).
          destruct (match l_phys (w_labels w2 l) with Some q => _ =? q | None => false end); split3 H; subst w'; [exact M2|].
          cbn -[w2]. unfold set_label at 1. rewrite Nat.eqb_refl. exact M2.
  Qed.

  Variable files : list gfile.
  Notation mono := (mono files).
  Notation good := (good files).
  Lemma validate_flags passes c : forall nofile a w a' w' b, well_formed files c -> apart c -> good w -> validate writable nofile passes c a w = ROk (a', w', b) ->
    flags (w_labels w) c a -> flags (w_labels w') c a'.
  Proof.
    assert (Mf : forall c w w' a, mono w w' -> good w -> (forall k, owns c k -> w_labels w' k = w_labels w k) -> flags (w_labels w) c a -> flags (w_labels w') c a).
    { intros c0 w w' a M G O. apply flags_mono; [apply (M G)|exact O]. }
    assert (Ms : forall c w w' a, mono w w' -> good w -> w_labels w' = w_labels w -> flags (w_labels w) c a -> flags (w_labels w') c a) by (intros c0 w w' a M G Eq; rewrite Eq; auto).
    induction c; intros nofile a w a' w' b0 Wf Ap G H F; cbn [validate ann flags AsmSpec.well_formed apart] in *; try exact I.
    - unbind H r1 E1. destruct r1 as [[a1 w1] b1]. unbind H r2 E2. destruct r2 as [[a2 w2] b2]. split3 H. subst.
      pose proof (validate_keep files _ _ _ _ _ _ _ _ _ E1) as M1. pose proof (validate_keep files _ _ _ _ _ _ _ _ _ E2) as M2. destruct (M1 G) as (G1 & _).
      destruct F as [F1 F2]. destruct Wf as [Wf1 Wf2]. destruct Ap as [[Ap1 Ap2] [C1 C2]]. cbn [fst snd]. split.
      + apply (Mf c1 w1 w' a1 M2 G1); [intros k Hk; eapply validate_other; [exact (C1 k Hk)|exact E2]|]. eapply IHc1; [exact Wf1|exact Ap1|exact G|exact E1|exact F1].
      + eapply IHc2; [exact Wf2|exact Ap2|exact G1|exact E2|]. refine (Mf _ _ _ _ M1 G _ F2). intros k Hk. eapply validate_other; [exact (C2 k Hk)|exact E1].
    - apply rok in H. intros Hd. eapply label_flag; [exact H|exact F|exact Hd].
    - match type of H with context [label_validate ?p ?q ?r ?s] => destruct (label_validate p q r s) as [[d w1] b1] eqn:E end.
      unbind H r2 E2. destruct r2 as [[a2 w2] b2]. split3 H. subst.
      pose proof (label_keep files _ _ _ _ _ _ _ E) as M1. pose proof (validate_keep files _ _ _ _ _ _ _ _ _ E2) as M2. destruct (M1 G) as (G1 & _).
      destruct F as [F1 F2]. cbn [fst snd]. split.
      + intros Hd. apply (M2 G1). eapply label_flag; [exact E|exact F1|exact Hd].
      + eapply IHc; [exact Wf|exact (proj1 Ap)|exact G1|exact E2|]. refine (Mf _ _ _ _ M1 G _ F2). intros k Hk. eapply label_other; [|exact E]. intros ->. exact (proj2 Ap Hk).
    - pose proof (cond_keep files t w) as M. pose proof (cond_labels t w) as ML. destruct (cond_evaluate t w) as [w1 r]. cbn [fst] in M, ML. destruct (M G) as (G1 & _). destruct F as [F1 F2].
      destruct Wf as [Wf1 Wf2]. destruct Ap as [[Ap1 Ap2] [C1 C2]]. rewrite <- ML in F1, F2. destruct r.
      + unbind H r E1. destruct r as [[a1 w2] b1]. split3 H. subst. cbn [fst snd]. split; [eapply IHc1; [exact Wf1|exact Ap1|exact G1|exact E1|exact F1]|].
        refine (Mf _ _ _ _ _ G1 _ F2); [eapply validate_keep; exact E1|]. intros k Hk. eapply validate_other; [exact (C2 k Hk)|exact E1].
      + unbind H r E1. destruct r as [[a1 w2] b1]. split3 H. subst. cbn [fst snd]. split; [|eapply IHc2; [exact Wf2|exact Ap2|exact G1|exact E1|exact F2] ].
        refine (Mf _ _ _ _ _ G1 _ F1); [eapply validate_keep; exact E1|]. intros k Hk. eapply validate_other; [exact (C1 k Hk)|exact E1].
    - eapply IHc; [exact Wf|exact Ap|exact G|exact H|exact F].
    - unbind H r E1. destruct r as [[s w1] ok]. pose proof (area_start_keep files _ _ _ _ _ _ _ _ E1) as M. pose proof (area_start_labels _ _ _ _ _ _ _ _ E1) as ML.
      destruct (negb ok); [split3 H; subst; rewrite ML; exact F|].
      unbind H r E2. destruct r as [[a2 w2] b2]. unbind H r E3. destruct r as [[a3 w3] b3]. split3 H. subst. cbn [snd].
      destruct (M G) as (G1 & _). rewrite (area_finish_labels _ _ _ _ _ _ _ _ _ E3). eapply IHc; [exact Wf|exact Ap|exact G1|exact E2|]. rewrite ML. exact F.
    - destruct (passes <? 1).
      + unbind H r E1. destruct r as [[a1 w1] b1]. unbind H w2 E2. split3 H. subst. cbn [snd].
        rewrite (seek_labels _ _ _ E2). eapply IHc; [exact Wf|exact Ap|exact G|exact E1|exact F].
      + destruct (range_of minr w); [|split3 H; subst; exact F].
        destruct (range_of maxr w); [|split3 H; subst; exact F].
        pose proof (file_id_keep files w) as M. pose proof (file_id_labels w) as ML. destruct (file_id w) as [w1 id]. cbn [fst] in M, ML.
        assert (M1 : forall x, mono w (with_alloc w1 x)) by (intros x; eapply mono_trans; [exact M|apply mono_same; reflexivity]).
        destruct (snd (allocate _ _ _ _ _ _)) as [pos|].
        * unbind H w2 E2. destruct (in_int64 pos); [|discriminate]. unbind H r E3. destruct r as [[a3 w3] b3]. unbind H w4 E4. split3 H. subst. cbn [snd].
          assert (M2 : mono w w2) by (eapply mono_trans; [apply M1|]; eapply mono_trans; [apply mono_section|]; eapply seek_keep; exact E2).
          destruct (M2 G) as (G2 & _). rewrite (seek_labels _ _ _ E4). eapply IHc; [exact Wf|exact Ap|exact G2|exact E3|].
          rewrite (seek_labels _ _ _ E2), section_labels. cbn [with_alloc w_labels]. rewrite ML. exact F.
        * split3 H. subst. cbn [snd with_alloc w_queue with_fm w_labels]. rewrite ML. exact F.
    - unbind H r1 E1. destruct r1 as [[a1 w1] b1]. unbind H r2 E2. destruct r2 as [[a2 w2] b2]. split3 H. subst. cbn [fst].
      pose proof (validate_keep files _ _ _ _ _ _ _ _ _ E1) as M1. destruct (M1 G) as (G1 & _). destruct Wf as (Wf & _ & Pl). destruct Ap as [Ap Cl]. destruct F as [F _]. split.
      + apply (Mf c w1 w' a1); [eapply object_keep; exact E2|exact G1| |].
        * intros k Hk. eapply object_other; [apply Cl; left; exact Hk|exact E2].
        * eapply IHc; [exact Wf|exact Ap|exact G|exact E1|exact F].
      + destruct Pl as [Pl|[T Sc]].
        { destruct (table_end c a1) as [[t n]|]; [|exact I]. intros v p _ _ _ _ L' r Er. rewrite (Pl _ _ _ Er). constructor. }
        destruct (table_end c a1) as [[t n]|] eqn:Et; [|exact I]. intros v p Ev Ep P C L' r Er.
        destruct (ob_sections r) as [|[k0 x0] l0] eqn:Es; [constructor|]. rewrite <- Es.
        assert (Nt : ~ gives o t).
        { apply Cl. right. split; [|exact (table_has_label _ _ _ _ Et)]. exists k0, L', (s64 (v + n)), r, x0. rewrite Es. split; [exact Er|left; reflexivity]. }
        rewrite (object_other _ _ _ _ _ _ _ _ Nt E2) in Ev, Ep.
        inversion T as [l body t1 u f Fx]; subst c. change (CFunction l (CSeq body (CSeq (CLabel t1 None) (CData u f)))) with (stub l body t1 u f) in *.
        destruct (table_any _ _ _ _ _ _ _ _ _ _ _ _ _ Fx E1 _ _ Et) as (-> & _ & wt & _ & _ & Vt & Pt & q & At).
        rewrite Vt in Ev. rewrite Pt in Ep. assert (Ep' : p = get_physical (w_fm wt)) by congruence.
        pose proof (table_moved writable wt q _ _ v p At (eq_sym Ev) Ep' P C) as Gv.
        destruct (object_labels _ _ _ _ _ _ _ E2) as (r0 & Er0 & El). rewrite Gv in Er0. destruct Sc as [S1 S2]. rewrite (S1 _ _ _ _ _ Er Er0), El. apply set_values_all. exact (S2 _ _ _ Er0).
  Qed.

  (** The loads of a program *)


  Lemma nodup_app {A} (a b : list A) : NoDup (a ++ b) <-> NoDup a /\ NoDup b /\ forall x, In x a -> ~ In x b.
  Proof.
    induction a as [|x a IH]; cbn; [split; [intros H; repeat split; auto; constructor|intros (_ & H & _); exact H]|]. split.
    - intros H. inversion H as [|? ? H1 H2]. subst. apply IH in H2. destruct H2 as (H2 & H3 & H4). rewrite in_app_iff in H1. repeat split; auto.
      + constructor; auto.
      + intros y [<-|Hy]; auto.
    - intros (H1 & H2 & H3). inversion H1 as [|? ? H4 H5]. subst. constructor.
      + rewrite in_app_iff. intros [H|H]; [auto|]. eapply H3; [left; reflexivity|exact H].
      + apply IH. repeat split; auto.
  Qed.

  (** Loads that are not of the program keep their literals. *)
  Definition pstep (I : list nat) (w w' : world) : Prop := NoDup (pids w ++ I) ->
    NoDup (pids w') /\ incl (pids w') (pids w ++ I) /\ forall k, ~ In k (pids w ++ I) -> w_slots w' k = w_slots w k.
  Definition pkeep (w w' : world) : Prop := w_pool w' = w_pool w /\ w_slots w' = w_slots w.
  Lemma pkeep_refl w : pkeep w w. Proof. split; reflexivity. Qed.
  Lemma pkeep_trans w w1 w2 : pkeep w w1 -> pkeep w1 w2 -> pkeep w w2.
  Proof. intros [] []. split; congruence. Qed.
  Lemma pkeep_step I w w' : pkeep w w' -> pstep I w w'.
  Proof.
    intros [E1 E2] N. unfold pids in *. rewrite E1, E2. apply nodup_app in N. destruct N as (N & _). repeat split; auto. intros x. rewrite in_app_iff. auto.
  Qed.
  Lemma pstep_next I J w w1 : pstep I w w1 -> NoDup (pids w ++ I ++ J) -> NoDup (pids w ++ I) /\ NoDup (pids w1 ++ J).
  Proof.
    intros S1 N. rewrite app_assoc in N. apply nodup_app in N. destruct N as (N & NJ & D). split; [exact N|]. destruct (S1 N) as (N1 & I1 & _).
    apply nodup_app. repeat split; auto.
  Qed.
  Lemma pstep_trans I J w w1 w2 : pstep I w w1 -> pstep J w1 w2 -> pstep (I ++ J) w w2.
  Proof.
    intros S1 S2 N. destruct (pstep_next _ _ _ _ S1 N) as [N0 N1]. destruct (S1 N0) as (A1 & A2 & A3). destruct (S2 N1) as (B1 & B2 & B3).
    split; [exact B1|]. split.
    - intros x Hx. specialize (B2 x Hx). rewrite app_assoc, in_app_iff. apply in_app_iff in B2. destruct B2 as [B2|B2]; auto.
    - intros k Hk. rewrite app_assoc, in_app_iff in Hk. rewrite B3, A3; auto. rewrite in_app_iff. intros [H|H]; auto.
  Qed.
  Lemma pstep_l I J w w' : pstep I w w' -> pstep (I ++ J) w w'.
  Proof. intros H. apply (pstep_trans I J w w'); [exact H|]. apply pkeep_step, pkeep_refl. Qed.
  Lemma pstep_r I J w w' : pstep J w w' -> pstep (I ++ J) w w'.
  Proof. intros H. apply (pstep_trans I J w w); [|exact H]. apply pkeep_step, pkeep_refl. Qed.
  Lemma pstep_before I w w1 w' : pkeep w w1 -> pstep I w1 w' -> pstep I w w'.
  Proof. intros H. exact (pstep_trans [] I w w1 w' (pkeep_step [] _ _ H)). Qed.
  Lemma pstep_after I w w1 w' : pstep I w w1 -> pkeep w1 w' -> pstep I w w'.
  Proof. intros H K. rewrite <- (app_nil_r I). exact (pstep_trans I [] w w1 w' H (pkeep_step [] _ _ K)). Qed.

  Lemma fm_pkeep w m : pkeep w (with_fm w m). Proof. split; reflexivity. Qed.
  Lemma section_pkeep w : pkeep w (next_section w).
  Proof. unfold next_section. destruct (w_arch w); split; reflexivity. Qed.
  Lemma seek_pkeep w a w' : w_seek w a = ROk w' -> pkeep w w'.
  Proof. unfold w_seek. intros H. unbind H r E. apply rok in H. subst. apply fm_pkeep. Qed.
  Lemma seek_physical_pkeep w a w' : w_seek_physical w a = ROk w' -> pkeep w w'.
  Proof. unfold w_seek_physical. intros H. unbind H r E. apply rok in H. subst. apply fm_pkeep. Qed.
  Lemma advance_pkeep w a w' : w_advance w a = ROk w' -> pkeep w w'.
  Proof. unfold w_advance. intros H. unbind H r E. apply rok in H. subst. apply fm_pkeep. Qed.
  Lemma file_id_pkeep w : pkeep w (fst (file_id w)).
  Proof. unfold file_id. destruct (active (w_fm w)) as [[i g]|]; split; reflexivity. Qed.
  Lemma cond_pkeep t w : pkeep w (fst (cond_evaluate t w)).
  Proof. unfold cond_evaluate. destruct t; try apply pkeep_refl. destruct (eval e (view_of w)); split; reflexivity. Qed.
  Lemma label_pkeep l v d w d' w' b : label_validate l v d w = (d', w', b) -> pkeep w w'.
  Proof.
    unfold label_validate. destruct (negb d && l_def (w_labels w l)) eqn:E1.
    - intros H. split3 H. subst. apply fm_pkeep.
    - set (w1 := if d then w else _).
      assert (M1 : pkeep w w1) by (unfold w1; destruct d; split; reflexivity).
      assert (ML : forall v, pkeep v v -> pkeep w v -> forall x, pkeep w (with_labels v x)) by (intros ? _ [] ?; split; assumption).
      destruct v as [e|].
      + destruct (eval e (view_of w1)) as [x|].
        * destruct (l_val (w_labels w1 l) =? x); intros H; split3 H; subst w'; [exact M1|]. apply ML; [apply pkeep_refl|exact M1].
        * intros H. split3 H. subst w'. eapply pkeep_trans; [exact M1|apply fm_pkeep].
      + destruct (l_val (w_labels w1 l) =? get_virtual (w_fm w1)) eqn:Ev.
        * destruct (match l_phys (w_labels w1 l) with Some q => _ =? q | None => false end); intros H; split3 H; subst w'; [exact M1|].
          apply ML; [apply pkeep_refl|exact M1].
        * set (w2 := with_labels w1 _). assert (M2 : pkeep w w2) by (apply ML; [apply pkeep_refl|exact M1]).
          destruct (match l_phys (w_labels w2 l) with Some q => _ =? q | None => false end); intros H; split3 H; subst w'; [exact M2|].
          apply ML; [apply pkeep_refl|exact M2].
  Qed.
  Lemma area_start_pkeep size fill position a w a' w' b : area_start size fill position a w = ROk (a', w', b) -> pkeep w w'.
  Proof.
    unfold area_start. intros H. unbind H r E. destruct r as [[a1 w1] ok].
    assert (M1 : pkeep w w1).
    { destruct position as [e|].
      - destruct (eval e (view_of w)) as [p|].
        + unbind E w0 E0. apply seek_pkeep in E0. split3 E. subst w1. eapply pkeep_trans; [apply section_pkeep|exact E0].
        + split3 E. subst w1. apply fm_pkeep.
      - split3 E. subst w1. apply pkeep_refl. }
    assert (MQ : pkeep w (w_queue w1)) by (eapply pkeep_trans; [exact M1|apply fm_pkeep]).
    destruct (negb ok); [split3 H; subst w'; exact M1|]. destruct (eval size (view_of w1)) as [n|]; [|split3 H; subst w'; exact MQ].
    destruct (n <? 0); [split3 H; subst w'; exact MQ|].
    destruct fill as [e|]; [|split3 H; subst w'; exact M1].
    destruct (eval e (view_of w1)); split3 H; subst w'; [exact M1|exact MQ].
  Qed.
  Lemma area_finish_pkeep shared filled old a w r a' w' b : area_finish shared filled old a w r = ROk (a', w', b) -> pkeep w w'.
  Proof.
    unfold area_finish. intros H. set (w1 := if ar_size a <? _ then w_queue w else w) in H.
    assert (M1 : pkeep w w1) by (unfold w1; destruct (_ <? _); split; reflexivity).
    unbind H w2 E2. assert (M2 : pkeep w1 w2) by (destruct (filled || shared); [eapply advance_pkeep; exact E2|apply rok in E2; subst w2; apply pkeep_refl]).
    pose proof (file_id_pkeep w2) as M3. destruct (file_id w2) as [w3 id]. cbn [fst] in M3. split3 H. subst w'.
    eapply pkeep_trans; [exact M1|]. eapply pkeep_trans; [exact M2|]. eapply pkeep_trans; [exact M3|].
    destruct (_ && _); destruct (ar_size a =? 0); split; reflexivity.
  Qed.
  Lemma pool_loop_slots passes position l : forall values w k, ~ In k (map pe_id l) ->
    w_slots (snd (pool_loop passes position l values w)) k = w_slots w k.
  Proof.
    induction l as [|e l IH]; intros values w k Hk; [reflexivity|]. cbn [pool_loop map In] in *. rewrite IH by (intros K; apply Hk; right; exact K).
    unfold set_pool_address. destruct (pool_reach _ _); [|reflexivity]. cbn. destruct (Nat.eqb_spec k (pe_id e)) as [K|K]; [exfalso; apply Hk; left; congruence|reflexivity].
  Qed.

  Lemma object_pkeep o old w result data w' b : object_validate o old w result = ROk (data, w', b) -> pkeep w w'.
  Proof.
    unfold object_validate. destruct (o (w_labels w) (get_virtual (w_fm w))) as [r|]; [|discriminate]. intros H.
    destruct (set_values (w_labels w) (ob_symbols r)) as [L1 moved]. destruct (set_values L1 (ob_sections r)) as [L2 b2].
    unbind H w1 E1. split3 H. subst w1. eapply pkeep_trans; [|eapply advance_pkeep; exact E1]. destruct (ob_error r); split; reflexivity.
  Qed.

  Lemma validate_pool passes c : forall nofile a w a' w' b, validate writable nofile passes c a w = ROk (a', w', b) -> pstep (ids c) w w'.
  Proof.
    induction c; intros nofile a w a' w' b0 H; cbn [validate ann ids] in *.
    - split3 H. subst. apply pkeep_step, pkeep_refl.
    - unbind H r1 E1. destruct r1 as [[a1 w1] b1]. unbind H r2 E2. destruct r2 as [[a2 w2] b2]. split3 H. subst.
      eapply pstep_trans; [eapply IHc1; exact E1|eapply IHc2; exact E2].
    - apply rok in H. apply pkeep_step. eapply label_pkeep. exact H.
    - match type of H with context [label_validate ?p ?q ?r ?s] => destruct (label_validate p q r s) as [[d w1] b1] eqn:E end.
      unbind H r2 E2. destruct r2 as [[a2 w2] b2]. split3 H. subst.
      eapply pstep_before; [eapply label_pkeep; exact E|eapply IHc; exact E2].
    - split3 H. subst. apply pkeep_step. unfold open_validate. destruct nofile; [apply fm_pkeep|]. eapply pkeep_trans; [apply section_pkeep|]. apply fm_pkeep.
    - split3 H. subst. apply pkeep_step. unfold close_validate. destruct nofile; [apply fm_pkeep|]. eapply pkeep_trans; [apply section_pkeep|]. apply fm_pkeep.
    - apply pkeep_step. unfold org_validate in H. destruct (eval e (view_of w)) as [x|]; [|split3 H; subst; apply fm_pkeep].
      unbind H w1 E1. split3 H. subst. eapply pkeep_trans; [apply section_pkeep|]. destruct physical; [eapply seek_physical_pkeep|eapply seek_pkeep]; exact E1.
    - apply pkeep_step. unfold align_validate in H. destruct (eval value (view_of w)) as [n|]; [|split3 H; subst; apply fm_pkeep].
      destruct (_ && (n =? int64_min)); [discriminate|].
      destruct (_ && _); [split3 H; subst; apply fm_pkeep|].
      destruct (match fill with None => _ | Some e => _ end) as [byte|]; [|split3 H; subst; apply fm_pkeep].
      unbind H w1 E1. split3 H. subst. eapply pkeep_trans; [apply section_pkeep|eapply advance_pkeep; exact E1].
    - apply pkeep_step. unfold skip_validate in H. destruct (eval e (view_of w)) as [x|]; [|split3 H; subst; apply fm_pkeep].
      unbind H w1 E1. split3 H. subst. eapply pkeep_trans; [apply section_pkeep|eapply advance_pkeep; exact E1].
    - apply pkeep_step. unfold header_validate in H. destruct (eval e (view_of w)) as [x|]; [|split3 H; subst; apply fm_pkeep].
      unbind H r E1. destruct r as [m b1]. split3 H. subst. apply fm_pkeep.
    - apply pkeep_step. unfold incbin_validate in H. destruct (match start with None => _ | Some e => _ end) as [s|]; [|split3 H; subst; apply fm_pkeep].
      destruct (_ && _); [split3 H; subst; apply fm_pkeep|].
      destruct (match size with None => _ | Some e => _ end) as [n|]; [|split3 H; subst; apply fm_pkeep].
      destruct (negb _); [discriminate|]. unbind H w1 E1. split3 H. subst. eapply pkeep_trans; [apply section_pkeep|eapply advance_pkeep; exact E1].
    - apply pkeep_step. unfold data_validate in H. unbind H w1 E1. split3 H. subst. eapply pkeep_trans; [|eapply advance_pkeep; exact E1].
      destruct (snd (f (w_table w) (view_of w))); split; reflexivity.
    - split3 H. subst. apply pkeep_step. split; reflexivity.
    - split3 H. subst. apply pkeep_step. split; reflexivity.
    - split3 H. subst. apply pkeep_step. unfold message_validate. destruct (text (view_of w)); [destruct is_error|]; split; reflexivity.
    - pose proof (cond_pkeep t w) as M. destruct (cond_evaluate t w) as [w1 r]. cbn [fst] in M. destruct r.
      + unbind H r E1. destruct r as [[a1 w2] b1]. split3 H. subst. apply pstep_l. eapply pstep_before; [exact M|eapply IHc1; exact E1].
      + unbind H r E1. destruct r as [[a1 w2] b1]. split3 H. subst. apply pstep_r. eapply pstep_before; [exact M|eapply IHc2; exact E1].
    - eapply IHc. exact H.
    - unbind H r E1. destruct r as [[s w1] ok]. pose proof (area_start_pkeep _ _ _ _ _ _ _ _ E1) as M.
      destruct (negb ok); [split3 H; subst; apply pkeep_step; exact M|].
      unbind H r E2. destruct r as [[a2 w2] b2]. unbind H r E3. destruct r as [[a3 w3] b3]. split3 H. subst.
      eapply pstep_before; [exact M|]. eapply pstep_after; [eapply IHc; exact E2|eapply area_finish_pkeep; exact E3].
    - destruct (passes <? 1).
      + unbind H r E1. destruct r as [[a1 w1] b1]. unbind H w2 E2. split3 H. subst. eapply pstep_after; [eapply IHc; exact E1|eapply seek_pkeep; exact E2].
      + destruct (range_of minr w); [|split3 H; subst; apply pkeep_step, fm_pkeep]. destruct (range_of maxr w); [|split3 H; subst; apply pkeep_step, fm_pkeep].
        pose proof (file_id_pkeep w) as M. destruct (file_id w) as [w1 id]. cbn [fst] in M.
        assert (M1 : forall x, pkeep w (with_alloc w1 x)) by (intros x; eapply pkeep_trans; [exact M|split; reflexivity]).
        destruct (snd (allocate _ _ _ _ _ _)) as [pos|].
        * unbind H w2 E2. destruct (in_int64 pos); [|discriminate]. unbind H r E3. destruct r as [[a3 w3] b3]. unbind H w4 E4. split3 H. subst.
          eapply pstep_before; [apply M1|]. eapply pstep_before; [apply section_pkeep|]. eapply pstep_before; [eapply seek_pkeep; exact E2|].
          eapply pstep_after; [eapply IHc; exact E3|eapply seek_pkeep; exact E4].
        * split3 H. subst. apply pkeep_step. eapply pkeep_trans; [apply M1|apply fm_pkeep].
    - apply pkeep_step. unfold instr_validate in H. destruct (fst (i (view_of w) (w_delay w))) as [l|n].
      + unbind H w1 E1. split3 H. subst. eapply pkeep_trans; [|eapply advance_pkeep; exact E1]. split; reflexivity.
      + unbind H w1 E1. split3 H. subst. eapply pkeep_trans; [eapply advance_pkeep; exact E1|apply fm_pkeep].
    - unfold load_validate in H. destruct (eval value (view_of w)) as [v|]; [|split3 H; subst; apply pkeep_step, fm_pkeep].
      unbind H w1 E1. pose proof (advance_pkeep _ _ _ E1) as M. destruct (short (s32 v)); split3 H; subst; [apply pkeep_step, M|].
      eapply pstep_before; [exact M|]. intros N. unfold pids in *. cbn [with_pool w_pool w_slots]. rewrite map_app. cbn [map pe_id].
      split; [exact N|]. split; [apply incl_refl|reflexivity].
    - unfold pool_validate in H. pose proof (file_id_pkeep w) as M. destruct (file_id w) as [w1 id]. cbn [fst] in M.
      set (w2 := if fst a =? -1 then w1 else _) in H.
      assert (M2 : pkeep w1 w2) by (unfold w2; destruct (fst a =? -1); split; reflexivity).
      pose proof (pool_loop_slots passes (get_virtual (w_fm w2)) (w_pool w2) [] w2) as M3.
      destruct (pool_loop passes (get_virtual (w_fm w2)) (w_pool w2) [] w2) as [values w3]. cbn [snd] in M3.
      unbind H w4 E4. split3 H. subst. pose proof (pkeep_trans _ _ _ M M2) as [M4 M5]. pose proof (advance_pkeep _ _ _ E4) as [M6 M7].
      cbn [with_pool w_pool w_slots] in M6, M7. intros N. unfold pids in *. cbn [with_alloc w_pool w_slots]. rewrite M6, M7. cbn.
      split; [constructor|]. split; [intros x []|]. intros k Hk. rewrite app_nil_r in Hk. rewrite M3, M5; [reflexivity|]. rewrite M4. exact Hk.
    - unbind H r1 E1. destruct r1 as [[a1 w1] b1]. unbind H r2 E2. destruct r2 as [[a2 w2] b2]. split3 H. subst.
      eapply pstep_after; [eapply IHc; exact E1|eapply object_pkeep; exact E2].
  Qed.
End Flags.

(** What the address given to a literal depends on *)
Definition ctx (P : nat -> Z) (w : world) (I : list nat) (w' : world) : Prop :=
  NoDup (pids w ++ I) /\ forall k, In k (pids w ++ I) -> ~ In k (pids w') -> P k = w_slots w' k.
Lemma ctx_seq P I J w w1 w2 : pstep I w w1 -> pstep J w1 w2 -> ctx P w (I ++ J) w2 -> ctx P w I w1 /\ ctx P w1 J w2.
Proof.
  intros S1 S2 [N A]. destruct (pstep_next _ _ _ _ S1 N) as [N0 N1]. destruct (S1 N0) as (A1 & A2 & A3). destruct (S2 N1) as (B1 & B2 & B3). split.
  - split; [exact N0|]. intros k Hk Hn. assert (Hj : ~ In k J).
    { rewrite app_assoc in N. apply nodup_app in N. destruct N as (_ & _ & D). apply D. exact Hk. }
    rewrite <- B3 by (rewrite in_app_iff; tauto). apply A; [rewrite app_assoc; apply in_app_iff; auto|].
    intros H. specialize (B2 k H). apply in_app_iff in B2. tauto.
  - split; [exact N1|]. intros k Hk Hn. apply A; [|exact Hn]. rewrite app_assoc. apply in_app_iff. apply in_app_iff in Hk. destruct Hk as [Hk|Hk]; auto.
Qed.
Lemma ctx_l P I J w w' : ctx P w (I ++ J) w' -> ctx P w I w'.
Proof.
  intros [N A]. rewrite app_assoc in N, A. split; [apply nodup_app in N; apply N|]. intros k Hk. apply A. apply in_app_iff. auto.
Qed.
Lemma ctx_r P I J w w' : ctx P w (I ++ J) w' -> ctx P w J w'.
Proof.
  intros [N A]. apply nodup_app in N. destruct N as (N1 & N2 & D). apply nodup_app in N2. destruct N2 as (N3 & N4 & D2). split.
  - apply nodup_app. repeat split; auto. intros x Hx Hj. apply (D x Hx). apply in_app_iff. auto.
  - intros k Hk. apply A. rewrite !in_app_iff in *. tauto.
Qed.
Lemma ctx_before P I w w1 w' : pkeep w w1 -> ctx P w I w' -> ctx P w1 I w'.
Proof. intros [E _] H. unfold ctx, pids in *. rewrite E. exact H. Qed.
Lemma ctx_after P I w w1 w' : pkeep w1 w' -> ctx P w I w' -> ctx P w I w1.
Proof. intros [E1 E2] H. unfold ctx, pids in *. rewrite E1, E2 in H. exact H. Qed.
