(** The file manager follows the history; writes are exact. *)

Require Import ZArith List Bool Lia ZifyBool.
From Verif Require Import Ints IntsLemmas Res BytesSpec BytesProofs FileModel FileSpec.
Import ListNotations.
Local Open Scope Z_scope.

Lemma set_file_length l n g : List.length (set_file l n g) = List.length l.
Proof. revert n. induction l as [|x l IH]; intros n; [reflexivity|]. destruct n; cbn; [reflexivity|]. rewrite IH. reflexivity. Qed.
Lemma set_file_nth l n g i :
  nth_error (set_file l n g) i = if Nat.eqb i n then (match nth_error l i with Some _ => Some g | None => None end) else nth_error l i.
Proof.
  revert n i. induction l as [|x l IH]; intros n i.
  - cbn. destruct i, (Nat.eqb _ n); reflexivity.
  - destruct n as [|n]; cbn [set_file]; destruct i as [|i]; try reflexivity. cbn [nth_error Nat.eqb]. apply IH.
Qed.

Record same_file (g0 g : gfile) : Prop := mkSame {
  sf_name : g_name g = g_name g0; sf_original : g_original g = g_original g0;
  sf_mode : g_mode g = g_mode g0; sf_header : g_header0 g = g_header0 g0 }.

Record at_cursor (c : cursor) (g : gfile) : Prop := mkAt {
  at_header : g_header g = cu_header c;
  at_virtual : g_virtual g = cu_phys c + cu_header c;
  at_phys : 0 <= cu_phys c;
  at_open : g_open g = cu_real c;
  at_pos : cu_real c = true -> g_pos g = cu_phys c /\ g_fail g = false }.

Record finv (files : list gfile) (m : fmgr) (h : list (file_op * bool)) : Prop := mkFinv {
  fi_length : List.length (f_files m) = List.length files;
  fi_same : forall i g0 g, nth_error files i = Some g0 -> nth_error (f_files m) i = Some g -> same_file g0 g;
  fi_big : f_big m = big_endian h;
  fi_closed : forall i g, f_active m <> Some i -> nth_error (f_files m) i = Some g -> g_open g = false;
  fi_active : match where_to (header_of files) h with
              | None => f_active m = None
              | Some c => f_active m = Some (cu_file c) /\ exists g, nth_error (f_files m) (cu_file c) = Some g /\ at_cursor c g
              end }.

Section Host.
  Variable writable : nat -> bool.
  Variable own_big : bool.
  Variable files : list gfile.

  Lemma finv_new d : Forall fresh files -> finv files (new_manager files d) [].
  Proof.
    intros F. constructor; cbn; try reflexivity.
    - intros i g0 g E1 E2. rewrite E1 in E2. injection E2 as <-. constructor; reflexivity.
    - intros i g _ E. rewrite Forall_forall in F. apply nth_error_In in E. destruct (F _ E) as (a & b & c & e & ->). reflexivity.
  Qed.

  Lemma active_cursor m h : finv files m h ->
    match where_to (header_of files) h with
    | None => active m = None
    | Some c => exists g, active m = Some (cu_file c, g) /\ nth_error (f_files m) (cu_file c) = Some g /\ at_cursor c g
    end.
  Proof.
    intros [_ _ _ _ A]. unfold active. destruct (where_to _ h) as [c|].
    - destruct A as (-> & g & E & At). rewrite E. eauto.
    - rewrite A. reflexivity.
  Qed.

  (** Replacing the active file. *)
  Lemma finv_put m h o ok c c' g g' d q p :
    finv files m h -> where_to (header_of files) h = Some c -> nth_error (f_files m) (cu_file c) = Some g ->
    where_to (header_of files) ((o, ok) :: h) = Some c' -> cu_file c' = cu_file c ->
    big_endian ((o, ok) :: h) = big_endian h ->
    same_file g g' -> at_cursor c' g' ->
    finv files (mkMgr (set_file (f_files m) (cu_file c) g') (f_active m) (f_big m) d q p) ((o, ok) :: h).
  Proof.
    intros [L Sm B Cl A] Hc Hg Hc' Hf Hb SF At. rewrite Hc in A. destruct A as (Ha & g1 & Hg1 & _).
    constructor; cbn [f_files f_active f_big].
    - rewrite set_file_length. exact L.
    - intros i g0 g2 E1 E2. rewrite set_file_nth in E2. destruct (Nat.eqb_spec i (cu_file c)) as [Ei|Hne].
      + subst i. rewrite Hg in E2. injection E2 as <-. destruct (Sm _ _ _ E1 Hg), SF. constructor; congruence.
      + apply (Sm _ _ _ E1 E2).
    - congruence.
    - intros i g2 Hne E. rewrite set_file_nth in E. destruct (Nat.eqb_spec i (cu_file c)) as [Ei|]; [exfalso; congruence|].
      apply (Cl i); congruence.
    - rewrite Hc', Hf. split; [exact Ha|]. exists g'. rewrite set_file_nth, Nat.eqb_refl, Hg. split; [reflexivity|exact At].
  Qed.

  Lemma finv_fail m h o : finv files m h -> where_to (header_of files) ((o, false) :: h) = where_to (header_of files) h ->
    big_endian ((o, false) :: h) = big_endian h -> finv files (queue m) ((o, false) :: h).
  Proof.
    intros [L Sm B Cl A] E1 E2. constructor; cbn [queue f_files f_active f_big]; try assumption; [congruence|].
    rewrite E1. exact A.
  Qed.

  (** Opening. *)
  Lemma closed_all m h : finv files m h ->
    let m1 := match active m with Some (j, g) => put_file m j (stream_close g) | None => m end in
    List.length (f_files m1) = List.length files /\
    (forall i g0 g, nth_error files i = Some g0 -> nth_error (f_files m1) i = Some g -> same_file g0 g) /\
    (forall i g, nth_error (f_files m1) i = Some g -> g_open g = false) /\
    f_big m1 = f_big m /\ f_disk m1 = f_disk m /\ f_queued m1 = f_queued m /\ f_printed m1 = f_printed m.
  Proof.
    intros I. pose proof (active_cursor m h I) as A. destruct I as [L Sm B Cl Ac].
    destruct (where_to _ h) as [c|].
    - destruct A as (g & Ea & Hg & At). destruct Ac as (Ha & _). rewrite Ea. cbn [put_file f_files f_big f_disk f_queued f_printed].
      split; [rewrite set_file_length; exact L|]. split; [|split; [|repeat split]].
      + intros i g0 g1 E1 E2. rewrite set_file_nth in E2. destruct (Nat.eqb_spec i (cu_file c)) as [Ei|]; [|apply (Sm _ _ _ E1 E2)].
        subst i. rewrite Hg in E2. injection E2 as <-. destruct (Sm _ _ _ E1 Hg). constructor; assumption.
      + intros i g1 E. rewrite set_file_nth in E. destruct (Nat.eqb_spec i (cu_file c)) as [Ei|].
        * subst i. rewrite Hg in E. injection E as <-. reflexivity.
        * apply (Cl i); congruence.
    - rewrite A. repeat split; try assumption; try reflexivity; try (apply (Sm _ _ _ H H0)).
      intros i g E. apply (Cl i); congruence.
  Qed.

  Lemma open_inv m h i check m' ok : finv files m h -> (i < List.length files)%nat ->
    open_file writable m i check = (m', ok) -> finv files m' ((FOpen i check, ok) :: h).
  Proof.
    intros I Hi E. pose proof (closed_all m h I) as C. unfold open_file in E.
    set (m1 := match active m with Some (j, g) => put_file m j (stream_close g) | None => m end) in *.
    cbv zeta in C. destruct C as (L & Sm & Cl & B & _). cbn [set_active f_files] in E.
    destruct (nth_error files i) as [g0|] eqn:E0; [|apply nth_error_None in E0; lia].
    destruct (nth_error (f_files m1) i) as [g|] eqn:Eg; [|apply nth_error_None in Eg; lia].
    pose proof (Sm _ _ _ E0 Eg) as SF. pose proof (Cl _ _ Eg) as Co.
    assert (Hh : header_of files i = g_header0 g) by (unfold header_of; rewrite E0; destruct SF; congruence).
    assert (K : forall gn dn qn pn okn, same_file g gn -> at_cursor (mkCursor i (g_header0 g) 0 (negb check && okn)) gn ->
      finv files (mkMgr (set_file (f_files m1) i gn) (Some i) (f_big m1) dn qn pn) ((FOpen i check, okn) :: h)).
    { intros gn dn qn pn okn SFn At. constructor; cbn [f_files f_active f_big].
      - rewrite set_file_length. exact L.
      - intros j g1 g2 E1 E2. rewrite set_file_nth in E2. destruct (Nat.eqb_spec j i) as [Ej|]; [|apply (Sm _ _ _ E1 E2)].
        subst j. rewrite Eg in E2. injection E2 as <-. destruct (Sm _ _ _ E1 Eg), SFn. constructor; congruence.
      - cbn [big_endian]. rewrite B. apply (fi_big _ _ _ I).
      - intros j g1 Hne E1. rewrite set_file_nth in E1. destruct (Nat.eqb_spec j i) as [Ej|]; [exfalso; congruence|apply (Cl _ _ E1)].
      - cbn [where_to cu_file]. rewrite Hh. split; [reflexivity|]. exists gn. rewrite set_file_nth, Nat.eqb_refl, Eg. split; [reflexivity|exact At]. }
    destruct check.
    - unfold open_check in E. cbn [put_file set_active f_files f_active f_big f_disk f_queued f_printed] in E.
      destruct (match g_mode _ with MOpen => _ | MCreate => _ | MCopy => _ end); injection E as <- <-; cbn [queue f_files f_active f_big f_disk f_queued f_printed]; apply K;
        try (constructor; reflexivity);
        (constructor; cbn [cu_header cu_phys cu_real g_header g_virtual g_open set_virtual set_header negb andb]; try lia; try assumption; try discriminate).
    - unfold open_real in E. destruct g as [nm og md h0 hd vt op ps fl]. cbn [g_open g_header0] in Co, Hh, K. subst op.
      cbn [negb andb] in K.
      destruct md; cbn [set_virtual set_header stream_open g_mode g_open g_name g_original g_header0 g_header g_virtual g_pos g_fail put_file set_active set_disk print f_files f_active f_big f_disk f_queued f_printed] in E.
      + destruct (_ && _); injection E as <- <-; apply K; constructor; cbn; try reflexivity; try lia; try discriminate; auto.
      + destruct (writable _); injection E as <- <-; apply K; constructor; cbn; try reflexivity; try lia; try discriminate; auto.
      + destruct (f_disk m1 _); [destruct (_ || _)|]; injection E as <- <-; apply K; constructor; cbn; try reflexivity; try lia; try discriminate; auto.
  Qed.

  Lemma write_inv m h l n o m' ok : finv files m h ->
    List.length l = n -> (o = FWrite l \/ exists v, o = FWriteUnit n v) ->
    write m l = ROk (m', ok) -> finv files m' ((o, ok) :: h).
  Proof.
    intros I Hn Ho E. pose proof (active_cursor m h I) as A. unfold write in E.
    assert (Hb : forall b, big_endian ((o, b) :: h) = big_endian h) by (intros b; destruct Ho as [->|[v ->]]; reflexivity).
    assert (Hf : where_to (header_of files) ((o, false) :: h) = where_to (header_of files) h) by (destruct Ho as [->|[v ->]]; reflexivity).
    destruct (where_to (header_of files) h) as [c|] eqn:Ec.
    - destruct A as (g & Ea & Hg & [Ah Av Ap Ao Apos]). rewrite Ea in E. rewrite Ao in E.
      destruct (cu_real c) eqn:Er; cbn [negb] in E.
      + destruct (Apos eq_refl) as [Hp Hfl]. rewrite Hfl in E. destruct (in_int64 _); [|discriminate].
        injection E as <- <-.
        apply (finv_put m h o true c (mkCursor (cu_file c) (cu_header c) (cu_phys c + Z.of_nat n) (cu_real c)) g); try assumption; try reflexivity; try apply Hb.
        * destruct Ho as [->|[v ->]]; cbn [where_to]; rewrite Ec; cbn; rewrite ?Hn; reflexivity.
        * unfold stream_seek, set_virtual. cbn [g_fail]. rewrite Hfl. constructor; reflexivity.
        * unfold stream_seek, set_virtual. cbn [g_fail]. rewrite Hfl, Hn. constructor; cbn; try assumption; try congruence; try lia; try (intros _; split; [lia|reflexivity]).
      + injection E as <- <-. apply finv_fail; [exact I| |apply Hb]. rewrite Hf, Ec. reflexivity.
    - rewrite A in E. injection E as <- <-. apply finv_fail; [exact I| |apply Hb]. rewrite Hf, Ec. reflexivity.
  Qed.

  Lemma seek_at c g p : at_cursor c g -> 0 <= p ->
    let g1 := set_virtual g (p + cu_header c) in
    same_file g (if g_open g1 then stream_seek g1 p else g1) /\
    at_cursor (mkCursor (cu_file c) (cu_header c) p (cu_real c)) (if g_open g1 then stream_seek g1 p else g1).
  Proof.
    intros [Ah Av Ap Ao Apos] Hp. cbn [set_virtual g_open]. unfold stream_seek. cbn [set_virtual g_fail g_open].
    destruct (g_open g) eqn:Eo.
    - destruct (Apos (eq_sym Ao)) as [Hpos Hf]. rewrite Hf. split; constructor; cbn; try reflexivity; try assumption; try congruence; auto.
    - split; constructor; cbn; try reflexivity; try assumption; try congruence; try lia.
  Qed.

  Lemma seek_virtual_inv m h o a m' ok c g : finv files m h -> where_to (header_of files) h = Some c ->
    nth_error (f_files m) (cu_file c) = Some g -> at_cursor c g ->
    where_to (header_of files) ((o, false) :: h) = Some c ->
    where_to (header_of files) ((o, true) :: h) = Some (mkCursor (cu_file c) (cu_header c) (a - cu_header c) (cu_real c)) ->
    (forall b, big_endian ((o, b) :: h) = big_endian h) ->
    file_seek_virtual m (cu_file c) g a = ROk (m', ok) -> finv files m' ((o, ok) :: h).
  Proof.
    intros I Ec Hg At W0 W1 Hb E. unfold file_seek_virtual in E. rewrite (at_header _ _ At) in E.
    destruct (in_int64 _); cbn [negb] in E; [|discriminate].
    destruct (Z.ltb_spec (a - cu_header c) 0).
    - injection E as <- <-. apply finv_fail; [exact I|congruence|apply Hb].
    - injection E as <- <-.
      destruct (seek_at c g (a - cu_header c) At H) as [S1 S2].
      replace (a - cu_header c + cu_header c) with a in * by lia.
      apply (finv_put m h o true c (mkCursor (cu_file c) (cu_header c) (a - cu_header c) (cu_real c)) g); try assumption; try reflexivity.
      apply Hb.
  Qed.
  Lemma seek_physical_inv m h o a m' ok c g : finv files m h -> where_to (header_of files) h = Some c ->
    nth_error (f_files m) (cu_file c) = Some g -> at_cursor c g ->
    where_to (header_of files) ((o, false) :: h) = Some c ->
    where_to (header_of files) ((o, true) :: h) = Some (mkCursor (cu_file c) (cu_header c) a (cu_real c)) ->
    (forall b, big_endian ((o, b) :: h) = big_endian h) ->
    file_seek_physical m (cu_file c) g a = ROk (m', ok) -> finv files m' ((o, ok) :: h).
  Proof.
    intros I Ec Hg At W0 W1 Hb E. unfold file_seek_physical in E. rewrite (at_header _ _ At) in E.
    destruct (Z.ltb_spec a 0).
    - injection E as <- <-. apply finv_fail; [exact I|congruence|apply Hb].
    - destruct (in_int64 _); cbn [negb] in E; [|discriminate]. injection E as <- <-.
      destruct (seek_at c g a At H) as [S1 S2].
      apply (finv_put m h o true c (mkCursor (cu_file c) (cu_header c) a (cu_real c)) g); try assumption; try reflexivity.
      apply Hb.
  Qed.

  Lemma set_file_twice l i g g' : set_file (set_file l i g) i g' = set_file l i g'.
  Proof. revert i. induction l as [|x l IH]; intros i; [reflexivity|]. destruct i; cbn; [reflexivity|rewrite IH; reflexivity]. Qed.

  Lemma memory_length n v : List.length (memory own_big n v) = n.
  Proof.
    unfold memory. assert (L : forall n v, List.length (memory_le n v) = n) by (clear; induction n as [|n IH]; intros v; cbn; [reflexivity|rewrite IH; reflexivity]).
    destruct own_big; rewrite ?rev_length; apply L.
  Qed.

  Lemma step_inv m h o m' ok : finv files m h -> op_ok files o -> file_step writable own_big m o = ROk (m', ok) -> finv files m' ((o, ok) :: h).
  Proof.
    intros I Ho E. pose proof (active_cursor m h I) as A.
    destruct o as [i check| |l|n v|a|p|n|hd|b]; cbn [file_step] in E.
    - injection E as E. apply (open_inv m); assumption.
    - injection E as <- <-. unfold close_file. pose proof (closed_all m h I) as C. cbv zeta in C.
      destruct (where_to (header_of files) h) as [c|] eqn:Ec.
      + destruct A as (g & Ea & Hg & At). rewrite Ea in *. destruct C as (L & Sm & Cl & B & _).
        constructor; cbn [set_active f_files f_active f_big where_to]; try assumption; try reflexivity.
        * cbn [big_endian put_file f_big]. apply (fi_big _ _ _ I).
        * intros i g1 _ E1. apply (Cl _ _ E1).
      + rewrite A. pose proof (fi_active _ _ _ I) as Fa. rewrite Ec in Fa. destruct I. constructor; cbn [where_to big_endian]; try assumption.
    - apply (write_inv m h l (List.length l)); auto.
    - cbn [op_ok] in Ho. destruct Ho as [-> | [-> | [-> | ->] ] ]; cbn [file_step] in E;
        (eapply write_inv; [exact I|apply memory_length|right; eexists; reflexivity|exact E]).
    - unfold seek_virtual in E. destruct (where_to (header_of files) h) as [c|] eqn:Ec.
      + destruct A as (g & Ea & Hg & At). rewrite Ea in E. apply (seek_virtual_inv m h _ a m' ok c g); try assumption; try reflexivity.
        cbn [where_to]. rewrite Ec. reflexivity.
      + rewrite A in E. injection E as <- <-. apply finv_fail; [exact I|reflexivity|reflexivity].
    - unfold seek_physical in E. destruct (where_to (header_of files) h) as [c|] eqn:Ec.
      + destruct A as (g & Ea & Hg & At). rewrite Ea in E. apply (seek_physical_inv m h _ p m' ok c g); try assumption; try reflexivity.
        cbn [where_to]. rewrite Ec. reflexivity.
      + rewrite A in E. injection E as <- <-. apply finv_fail; [exact I|reflexivity|reflexivity].
    - unfold advance in E. destruct (where_to (header_of files) h) as [c|] eqn:Ec.
      + destruct A as (g & Ea & Hg & At). rewrite Ea in E. eapply (seek_virtual_inv m h _ _ m' ok c g); try eassumption; try reflexivity.
        cbn [where_to]. rewrite Ec. cbn. rewrite (at_virtual _ _ At). reflexivity.
      + rewrite A in E. injection E as <- <-. apply finv_fail; [exact I|reflexivity|reflexivity].
    - unfold header_size in E. destruct (where_to (header_of files) h) as [c|] eqn:Ec; [|rewrite A in E; discriminate].
      destruct A as (g & Ea & Hg & At). rewrite Ea in E. destruct At as [Ah Av Ap Ao Apos].
      unfold file_seek_physical in E. rewrite Ah, Av in E. replace (cu_phys c + cu_header c - cu_header c) with (cu_phys c) in E by lia.
      destruct (Z.ltb_spec (cu_phys c) 0); [lia|]. destruct (in_int64 _); cbn [negb] in E; [|discriminate].
      unfold put_file in E. cbn [f_files f_active f_big f_disk f_queued f_printed] in E.
      rewrite set_file_twice in E. injection E as <- <-.
      assert (At' : at_cursor (mkCursor (cu_file c) hd (cu_phys c) (cu_real c)) (set_virtual (set_header g hd) (cu_phys c + hd))).
      { constructor; cbn; try assumption; reflexivity. }
      destruct (seek_at (mkCursor (cu_file c) hd (cu_phys c) (cu_real c)) (set_virtual (set_header g hd) (cu_phys c + hd)) (cu_phys c) At' H) as [S1 S2].
      cbn [cu_header cu_file cu_real] in S1, S2.
      apply (finv_put m h _ true c (mkCursor (cu_file c) hd (cu_phys c) (cu_real c)) g); try assumption; try reflexivity.
      * cbn [where_to]. rewrite Ec. reflexivity.
      * unfold stream_seek. cbn [set_virtual set_header g_open g_fail]. destruct (g_open g), (g_fail g); constructor; reflexivity.
    - injection E as <- <-. destruct I as [L Sm B Cl Ac]. constructor; cbn [set_endianness f_files f_active f_big big_endian]; try assumption; try reflexivity.
      cbn [where_to]. destruct (where_to (header_of files) h); exact Ac.
  Qed.

  Lemma history_inv d m h : Forall fresh files -> file_history writable own_big files d m h -> finv files m h.
  Proof.
    intros F. induction 1 as [|m h o m' ok H IH Ho E]; [apply finv_new; exact F|]. apply (step_inv m h o m' ok IH Ho E).
  Qed.
End Host.

(* ---- the addresses ---- *)

Lemma addresses writable own_big files d m h : Forall fresh files -> file_history writable own_big files d m h ->
  match where_to (header_of files) h with
  | None => get_virtual m = -1 /\ get_physical m = -1 /\ get_header m = -1
  | Some c =>
      get_header m = cu_header c /\ get_physical m = cu_phys c /\ get_virtual m = cu_phys c + cu_header c /\ 0 <= cu_phys c /\
      exists g, nth_error (f_files m) (cu_file c) = Some g /\ g_open g = cu_real c /\ (cu_real c = true -> g_pos g = cu_phys c)
  end.
Proof.
  intros F H. pose proof (history_inv _ _ _ _ _ _ F H) as I. pose proof (active_cursor _ _ _ I) as A.
  unfold get_virtual, get_physical, get_header. destruct (where_to _ h) as [c|].
  - destruct A as (g & -> & Hg & [Ah Av Ap Ao Apos]). repeat split; try lia. exists g. repeat split; try assumption. intros R. apply Apos. exact R.
  - rewrite A. auto.
Qed.

Lemma seek_answer writable own_big files d m h : Forall fresh files -> file_history writable own_big files d m h ->
  forall a m' ok, seek_virtual m a = ROk (m', ok) ->
  ok = match where_to (header_of files) h with None => false | Some c => 0 <=? a - cu_header c end.
Proof.
  intros F H a m' ok E. pose proof (history_inv _ _ _ _ _ _ F H) as I. pose proof (active_cursor _ _ _ I) as A.
  unfold seek_virtual in E. destruct (where_to _ h) as [c|].
  - destruct A as (g & Ea & Hg & At). rewrite Ea in E. unfold file_seek_virtual in E. rewrite (at_header _ _ At) in E.
    destruct (in_int64 _); cbn [negb] in E; [|discriminate]. destruct (Z.ltb_spec (a - cu_header c) 0); injection E as <- <-; lia.
  - rewrite A in E. injection E as <- <-. reflexivity.
Qed.
Lemma seek_physical_answer writable own_big files d m h : Forall fresh files -> file_history writable own_big files d m h ->
  forall a m' ok, seek_physical m a = ROk (m', ok) ->
  ok = match where_to (header_of files) h with None => false | Some c => 0 <=? a end.
Proof.
  intros F H a m' ok E. pose proof (history_inv _ _ _ _ _ _ F H) as I. pose proof (active_cursor _ _ _ I) as A.
  unfold seek_physical in E. destruct (where_to _ h) as [c|].
  - destruct A as (g & Ea & Hg & At). rewrite Ea in E. unfold file_seek_physical in E.
    destruct (Z.ltb_spec a 0); [injection E as <- <-; lia|]. destruct (in_int64 _); cbn [negb] in E; [|discriminate]. injection E as <- <-; lia.
  - rewrite A in E. injection E as <- <-. reflexivity.
Qed.

Lemma rejected_history writable own_big files d m h o m' : Forall fresh files -> file_history writable own_big files d m h ->
  (forall i c, o <> FOpen i c) -> (forall h, o <> FHeader h) ->
  file_step writable own_big m o = ROk (m', false) ->
  m' = mkMgr (f_files m) (f_active m) (f_big m) (f_disk m) true (f_printed m).
Proof.
  intros F H N1 N2 E. pose proof (history_inv _ _ _ _ _ _ F H) as I. pose proof (active_cursor _ _ _ I) as A.
  assert (Hf : forall i g, active m = Some (i, g) -> g_open g = true -> g_fail g = false).
  { intros i g Ea Ho. destruct (where_to _ h) as [c|]; [|congruence]. destruct A as (g' & Ea' & _ & At).
    rewrite Ea in Ea'. injection Ea' as _ <-. destruct At as [_ _ _ Ao Ap]. apply Ap. congruence. }
  assert (Q : forall l, write m l = ROk (m', false) -> m' = queue m).
  { intros l E1. unfold write in E1. destruct (active m) as [[i g]|]; [|injection E1 as <-; reflexivity].
    specialize (Hf i g eq_refl). destruct (g_open g); cbn [negb] in E1; [|injection E1 as <-; reflexivity].
    rewrite (Hf eq_refl) in E1. destruct (in_int64 _); discriminate. }
  assert (V : forall i g a, file_seek_virtual m i g a = ROk (m', false) -> m' = queue m).
  { intros i g a E1. unfold file_seek_virtual in E1. destruct (in_int64 _); cbn [negb] in E1; [|discriminate]. destruct (_ <? 0); [injection E1 as <-; reflexivity|discriminate]. }
  destruct o as [i check| |l|n v|a|p|n|hd|b]; cbn [file_step] in E; try discriminate;
    try (exfalso; eapply N1; reflexivity); try (exfalso; eapply N2; reflexivity).
  - apply (Q l). exact E.
  - do 9 (destruct n as [|n]; [eapply Q; exact E|]). eapply Q. exact E.
  - unfold seek_virtual in E. destruct (active m) as [[i g]|]; [eapply V; exact E|injection E as <-; reflexivity].
  - unfold seek_physical in E. destruct (active m) as [[i g]|]; [|injection E as <-; reflexivity].
    unfold file_seek_physical in E. destruct (_ <? 0); [injection E as <-; reflexivity|]. destruct (in_int64 _); cbn [negb] in E; discriminate.
  - unfold advance in E. destruct (active m) as [[i g]|]; [eapply V; exact E|injection E as <-; reflexivity].
Qed.

(* ---- byte order ---- *)

Lemma memory_le_bytes n v : memory_le n v = le_bytes n v.
Proof.
  revert v. induction n as [|n IH]; intros v; cbn [memory_le le_bytes]; [reflexivity|].
  rewrite IH. change 255 with (Z.ones 8). rewrite Z.land_ones, Z.shiftr_div_pow2 by lia. reflexivity.
Qed.

Definition byte_of (v k : Z) : Z := v / 2 ^ k mod 256.
Lemma byte_of_range v k : 0 <= byte_of v k < 256.
Proof. apply Z.mod_pos_bound. lia. Qed.
Lemma land_byte v k : 0 <= k -> Z.land v (255 * 2 ^ k) = byte_of v k * 2 ^ k.
Proof.
  intros H. unfold byte_of. rewrite <- !Z.shiftl_mul_pow2, <- Z.shiftr_div_pow2 by lia.
  change 256 with (2 ^ 8). rewrite <- Z.land_ones by lia. change (Z.ones 8) with 255.
  apply Z.bits_inj'. intros n Hn. rewrite Z.land_spec, !Z.shiftl_spec by lia.
  destruct (Z.ltb_spec n k); [rewrite !(Z.testbit_neg_r _ (n - k)) by lia; apply andb_false_r|].
  rewrite Z.land_spec, Z.shiftr_spec by lia. replace (n - k + k) with n by lia. reflexivity.
Qed.
Lemma lor_step a b j k : j = k + 8 -> 0 <= k -> 0 <= b < 256 -> Z.lor (a * 2 ^ j) (b * 2 ^ k) = (a * 256 + b) * 2 ^ k.
Proof.
  intros -> Hk Hb. rewrite <- (Z.shiftl_mul_pow2 b), <- (Z.shiftl_mul_pow2 (a * 256 + b)) by lia.
  replace (a * 2 ^ (k + 8)) with (Z.shiftl (a * 2 ^ 8) k) by (rewrite Z.shiftl_mul_pow2, Z.pow_add_r by lia; ring).
  rewrite <- Z.shiftl_lor. f_equal. apply lor_mul_pow2_small; lia.
Qed.
Lemma up v k j : 0 <= k -> 0 <= j -> Z.shiftl (byte_of v k * 2 ^ k) j = byte_of v k * 2 ^ (k + j).
Proof. intros. rewrite Z.shiftl_mul_pow2, Z.pow_add_r by lia. ring. Qed.
Lemma down v k j : 0 <= j -> j <= k -> Z.shiftr (byte_of v k * 2 ^ k) j = byte_of v k * 2 ^ (k - j).
Proof.
  intros. rewrite Z.shiftr_div_pow2 by lia. replace (2 ^ k) with (2 ^ (k - j) * 2 ^ j) by (rewrite <- Z.pow_add_r by lia; f_equal; lia).
  rewrite Z.mul_assoc, Z.div_mul by lia. reflexivity.
Qed.

Ltac swap_bytes v :=
  rewrite !land_byte, ?up, ?down by lia;
  repeat (rewrite lor_step by (try apply byte_of_range; reflexivity || lia));
  match goal with |- _ * 2 ^ ?k = _ => change (2 ^ k) with 1; ring end.
Lemma swap16_bytes v : swap16 v = byte_of v 0 * 256 + byte_of v 8.
Proof.
  unfold swap16. change 0xFF with (255 * 2 ^ 0). change 0xFF00 with (255 * 2 ^ 8). swap_bytes v.
Qed.
Lemma swap32_bytes v : swap32 v = ((byte_of v 0 * 256 + byte_of v 8) * 256 + byte_of v 16) * 256 + byte_of v 24.
Proof.
  unfold swap32. change 0xFF with (255 * 2 ^ 0). change 0xFF00 with (255 * 2 ^ 8).
  change 0xFF0000 with (255 * 2 ^ 16). change 0xFF000000 with (255 * 2 ^ 24). swap_bytes v.
Qed.
Lemma swap64_bytes v : swap64 v =
  ((((((byte_of v 0 * 256 + byte_of v 8) * 256 + byte_of v 16) * 256 + byte_of v 24) * 256 + byte_of v 32) * 256
    + byte_of v 40) * 256 + byte_of v 48) * 256 + byte_of v 56.
Proof.
  unfold swap64. change 0xFF with (255 * 2 ^ 0). change 0xFF00 with (255 * 2 ^ 8).
  change 0xFF0000 with (255 * 2 ^ 16). change 0xFF000000 with (255 * 2 ^ 24).
  change 0xFF00000000 with (255 * 2 ^ 32). change 0xFF0000000000 with (255 * 2 ^ 40).
  change 0xFF000000000000 with (255 * 2 ^ 48). change 0xFF00000000000000 with (255 * 2 ^ 56). swap_bytes v.
Qed.

Lemma step_mod a b : 0 <= b < 256 -> (a * 256 + b) mod 256 = b.
Proof. intros. rewrite Z.add_comm, Z_mod_plus_full. apply Z.mod_small. assumption. Qed.
Lemma step_div a b : 0 <= b < 256 -> (a * 256 + b) / 256 = a.
Proof. intros. rewrite Z.add_comm, Z_div_plus by lia. rewrite Z.div_small by assumption. reflexivity. Qed.
Lemma le_bytes_nth v k n : le_bytes (S n) (v / 2 ^ k) = byte_of v k :: le_bytes n (v / 2 ^ k / 256).
Proof. reflexivity. Qed.
Lemma shift_byte v k : 0 <= k -> v / 2 ^ k / 256 = v / 2 ^ (k + 8).
Proof. intros. change 256 with (2 ^ 8). rewrite Z.div_div, <- Z.pow_add_r by lia. reflexivity. Qed.
Lemma le_bytes2 v : le_bytes 2 v = [byte_of v 0; byte_of v 8].
Proof. replace v with (v / 2 ^ 0) at 1 by (change (2 ^ 0) with 1; apply Z.div_1_r). rewrite !le_bytes_nth, !shift_byte by lia. reflexivity. Qed.
Lemma le_bytes4 v : le_bytes 4 v = [byte_of v 0; byte_of v 8; byte_of v 16; byte_of v 24].
Proof.
  replace v with (v / 2 ^ 0) at 1 by (change (2 ^ 0) with 1; apply Z.div_1_r).
  do 4 rewrite le_bytes_nth, ?shift_byte by lia. reflexivity.
Qed.
Lemma le_bytes8 v : le_bytes 8 v = [byte_of v 0; byte_of v 8; byte_of v 16; byte_of v 24; byte_of v 32; byte_of v 40; byte_of v 48; byte_of v 56].
Proof.
  replace v with (v / 2 ^ 0) at 1 by (change (2 ^ 0) with 1; apply Z.div_1_r).
  do 8 rewrite le_bytes_nth, ?shift_byte by lia. reflexivity.
Qed.
Ltac peel := cbn [le_bytes rev app]; repeat (rewrite ?step_mod, ?step_div by apply byte_of_range).
Lemma swap16_le v : le_bytes 2 (swap16 v) = rev (le_bytes 2 v).
Proof. rewrite (le_bytes2 v), swap16_bytes. peel. rewrite Z.mod_small by apply byte_of_range. reflexivity. Qed.
Lemma swap32_le v : le_bytes 4 (swap32 v) = rev (le_bytes 4 v).
Proof. rewrite (le_bytes4 v), swap32_bytes. peel. rewrite Z.mod_small by apply byte_of_range. reflexivity. Qed.
Lemma swap64_le v : le_bytes 8 (swap64 v) = rev (le_bytes 8 v).
Proof. rewrite (le_bytes8 v), swap64_bytes. peel. rewrite Z.mod_small by apply byte_of_range. reflexivity. Qed.

Lemma le_bytes_wrap n v : forall k, Z.of_nat n * 8 <= k -> le_bytes n (v mod 2 ^ k) = le_bytes n v.
Proof.
  revert v. induction n as [|n IH]; intros v k Hk; [reflexivity|]. cbn [le_bytes]. 
  replace k with (8 + (k - 8)) by lia. rewrite Z.pow_add_r by lia. change (2 ^ 8) with 256.
  rewrite Z.rem_mul_r by lia.
  pose proof (Z.mod_pos_bound v 256 ltac:(lia)) as B.
  replace (v mod 256 + 256 * ((v / 256) mod 2 ^ (k - 8))) with ((v / 256) mod 2 ^ (k - 8) * 256 + v mod 256) by ring.
  rewrite step_mod, step_div by lia. rewrite IH by lia. reflexivity.
Qed.

Lemma unit_bytes own_big n v sw : (forall w, le_bytes n (sw w) = rev (le_bytes n w)) -> forall big,
  memory own_big n (if Bool.eqb big own_big then v else sw v) = encode_bytes big n v.
Proof.
  intros Hs big. unfold memory, encode_bytes. rewrite memory_le_bytes.
  destruct big, own_big; cbn [Bool.eqb]; rewrite ?Hs, ?rev_involutive; reflexivity.
Qed.

Definition one_unit (own_big : bool) (m : fmgr) (n : nat) (v : Z) : res (fmgr * bool) :=
  match n with 1%nat => write_u8 own_big m v | 2%nat => write_u16 own_big m v | 4%nat => write_u32 own_big m v | _ => write_u64 own_big m v end.
Lemma unit_write own_big m n v : n = 1%nat \/ n = 2%nat \/ n = 4%nat \/ n = 8%nat ->
  one_unit own_big m n v = write m (encode_bytes (f_big m) n v).
Proof.
  intros [-> | [-> | [-> | ->] ] ]; unfold one_unit, write_u8, write_u16, write_u32, write_u64.
  - f_equal. unfold memory, encode_bytes. rewrite memory_le_bytes. change (u8 v) with (v mod 2 ^ 8). rewrite (le_bytes_wrap 1) by reflexivity.
    destruct own_big, (f_big m); reflexivity.
  - f_equal. rewrite (unit_bytes own_big 2 (u16 v) swap16 swap16_le). unfold encode_bytes. change (u16 v) with (v mod 2 ^ 16). rewrite (le_bytes_wrap 2) by reflexivity. reflexivity.
  - f_equal. rewrite (unit_bytes own_big 4 (u32 v) swap32 swap32_le). unfold encode_bytes. change (u32 v) with (v mod 2 ^ 32). rewrite (le_bytes_wrap 4) by reflexivity. reflexivity.
  - f_equal. rewrite (unit_bytes own_big 8 (u64 v) swap64 swap64_le). unfold encode_bytes. change (u64 v) with (v mod 2 ^ 64). rewrite (le_bytes_wrap 8) by reflexivity. reflexivity.
Qed.

(* ---- put_bytes ---- *)

Lemma put_length c p l : l <> [] -> List.length (put_bytes c p l) = Nat.max (List.length c) (p + List.length l).
Proof. intros H. unfold put_bytes. destruct l as [|x l]; [congruence|]. cbn [List.length Nat.eqb]. rewrite !app_length, firstn_length, skipn_length, app_length, repeat_length. cbn [List.length]. lia. Qed.
Lemma put_inside c p l i : (p <= i < p + List.length l)%nat -> byte_at (put_bytes c p l) i = nth (i - p) l 0.
Proof.
  intros H. unfold put_bytes, byte_at. destruct (Nat.eqb_spec (List.length l) 0); [lia|].
  assert (L : List.length (firstn p (c ++ repeat 0 (p - List.length c))) = p) by (rewrite firstn_length, app_length, repeat_length; lia).
  rewrite app_nth2 by lia. rewrite L. rewrite app_nth1 by lia. reflexivity.
Qed.
Lemma nth_firstn_lt {A} (l : list A) n i d : (i < n)%nat -> nth i (firstn n l) d = nth i l d.
Proof. revert n i. induction l as [|x l IH]; intros n i H; destruct n; try lia; [destruct i; reflexivity|]. destruct i; cbn; [reflexivity|]. apply IH. lia. Qed.
Lemma nth_skipn_at {A} (l : list A) n i d : nth i (skipn n l) d = nth (n + i) l d.
Proof. revert n. induction l as [|x l IH]; intros n; [rewrite skipn_nil; destruct i, (n + _)%nat; reflexivity|]. destruct n; [reflexivity|]. cbn. apply IH. Qed.
Lemma put_outside c p l i : (i < p \/ p + List.length l <= i)%nat -> byte_at (put_bytes c p l) i = byte_at c i.
Proof.
  intros H. unfold put_bytes, byte_at. destruct (Nat.eqb_spec (List.length l) 0); [reflexivity|].
  assert (L : List.length (firstn p (c ++ repeat 0 (p - List.length c))) = p) by (rewrite firstn_length, app_length, repeat_length; lia).
  destruct H as [H|H].
  - rewrite app_nth1 by lia. rewrite nth_firstn_lt by lia. destruct (Nat.ltb_spec i (List.length c)).
    + apply app_nth1. assumption.
    + rewrite app_nth2, nth_repeat, (nth_overflow c) by lia. reflexivity.
  - rewrite app_nth2, L, app_nth2 by lia. rewrite nth_skipn_at. f_equal. lia.
Qed.

Lemma write_effect writable own_big files d m h n v m' : Forall fresh files -> file_history writable own_big files d m h ->
  (n = 1 \/ n = 2 \/ n = 4 \/ n = 8)%nat -> one_unit own_big m n v = ROk (m', true) ->
  exists c, where_to (header_of files) h = Some c /\
  let p := Z.to_nat (get_physical m) in
  let old := match f_disk m (name_of files (cu_file c)) with Some c => c | None => [] end in
  exists new, f_disk m' (name_of files (cu_file c)) = Some new /\
    List.length new = Nat.max (List.length old) (p + n) /\
    (forall i, (p <= i < p + n)%nat -> byte_at new i = nth (i - p) (encode_bytes (big_endian h) n v) 0) /\
    (forall i, (i < p \/ p + n <= i)%nat -> byte_at new i = byte_at old i) /\
    (forall other, other <> name_of files (cu_file c) -> f_disk m' other = f_disk m other) /\
    get_physical m' = get_physical m + Z.of_nat n /\ get_virtual m' = get_virtual m + Z.of_nat n.
Proof.
  intros F H Hn E. pose proof (history_inv _ _ _ _ _ _ F H) as I. pose proof (active_cursor _ _ _ I) as A.
  pose proof (unit_write own_big m n v Hn) as W. rewrite W in E. clear W.
  assert (Ll : List.length (encode_bytes (f_big m) n v) = n) by apply encode_bytes_length.
  rewrite (fi_big _ _ _ I) in E, Ll. set (l := encode_bytes (big_endian h) n v) in *. clearbody l.
  unfold write in E.
  destruct (where_to _ h) as [c|]; [|rewrite A in E; discriminate]. exists c. split; [reflexivity|].
  destruct A as (g & Ea & Hg & [Ah Av Ap Ao Apos]).
  assert (Hname : name_of files (cu_file c) = g_name g).
  { unfold name_of. destruct (nth_error files (cu_file c)) as [g0|] eqn:E0.
    - symmetry. apply (sf_name _ _ (fi_same _ _ _ I _ _ _ E0 Hg)).
    - apply nth_error_None in E0. rewrite <- (fi_length _ _ _ I) in E0. apply nth_error_None in E0. congruence. }
  rewrite Hname. unfold get_physical, get_virtual. rewrite Ea in *.
  assert (Fa : f_active m = Some (cu_file c)).
  { unfold active in Ea. destruct (f_active m) as [i|]; [|discriminate]. destruct (nth_error (f_files m) i); [|discriminate]. congruence. }
  destruct (g_open g) eqn:Eo; cbn [negb] in E; [|discriminate].
  destruct (in_int64 _); [|discriminate]. destruct (Apos (eq_sym Ao)) as [Hp Hfl]. rewrite Hfl in E. injection E as <-.
  assert (Hpp : g_virtual g - g_header g = g_pos g) by lia. rewrite Hpp.
  exists (put_bytes match f_disk m (g_name g) with Some c => c | None => [] end (Z.to_nat (g_pos g)) l).
  unfold active. cbn [set_disk put_file f_disk f_active f_files].
  rewrite Fa, set_file_nth, Nat.eqb_refl, Hg. unfold stream_seek, set_virtual, disk_set. cbn [g_fail g_virtual g_header].
  rewrite Hfl, Nat.eqb_refl. cbn [g_virtual g_header]. rewrite Ll.
  split; [reflexivity|]. split; [rewrite put_length by (intros Q; rewrite Q in Ll; cbn in Ll; lia); rewrite Ll; reflexivity|].
  split; [intros i Hi; apply put_inside; lia|]. split; [intros i Hi; apply put_outside; lia|].
  split; [|lia]. intros other Ho. destruct (Nat.eqb_spec other (g_name g)); [congruence|reflexivity].
Qed.

(** A rejected write changes no file. *)
Lemma write_rejected own_big m n v m' : (n = 1 \/ n = 2 \/ n = 4 \/ n = 8)%nat ->
  one_unit own_big m n v = ROk (m', false) -> f_disk m' = f_disk m.
Proof.
  intros Hn E. rewrite (unit_write own_big m n v Hn) in E. unfold write in E. destruct (active m) as [[i g]|]; [|injection E as <-; reflexivity].
  destruct (negb _); [injection E as <-; reflexivity|]. destruct (in_int64 _); [|discriminate]. destruct (g_fail g); [injection E as <-; reflexivity|discriminate].
Qed.
Lemma write_accepted writable own_big files d m h n v c : Forall fresh files -> file_history writable own_big files d m h ->
  (n = 1 \/ n = 2 \/ n = 4 \/ n = 8)%nat -> where_to (header_of files) h = Some c -> cu_real c = true ->
  is_int64 (get_virtual m) -> is_int64 (get_virtual m + 8) -> exists m', one_unit own_big m n v = ROk (m', true).
Proof.
  intros F H Hn Ec Er B0 B. pose proof (history_inv _ _ _ _ _ _ F H) as I. pose proof (active_cursor _ _ _ I) as A. rewrite Ec in A.
  rewrite (unit_write own_big m n v Hn). unfold write. unfold get_virtual in B0, B. destruct A as (g & Ea & Hg & [Ah Av Ap Ao Apos]).
  rewrite Ea in *. rewrite Ao, Er. cbn [negb]. destruct (Apos Er) as [Hp Hfl]. rewrite Hfl, encode_bytes_length.
  assert (Q : in_int64 (g_virtual g + Z.of_nat n) = true) by (unfold in_int64, is_int64 in *; lia). rewrite Q. eexists. reflexivity.
Qed.

(** Consecutive writes. *)
Lemma put_nil c p : put_bytes c p [] = c.
Proof. reflexivity. Qed.
Lemma put_app c p a b : put_bytes (put_bytes c p a) (p + List.length a) b = put_bytes c p (a ++ b).
Proof.
  destruct a as [|x a]; [rewrite Nat.add_0_r; reflexivity|]. destruct b as [|y b]; [rewrite put_nil, app_nil_r; reflexivity|].
  set (l1 := x :: a). set (l2 := y :: b).
  assert (N1 : l1 <> []) by discriminate. assert (N2 : l2 <> []) by discriminate. assert (N3 : l1 ++ l2 <> []) by discriminate. clearbody l1 l2.
  apply (nth_ext _ _ 0 0).
  - rewrite !put_length, app_length by assumption. lia.
  - intros i _. change (byte_at (put_bytes (put_bytes c p l1) (p + List.length l1) l2) i = byte_at (put_bytes c p (l1 ++ l2)) i).
    pose proof (app_length l1 l2) as L.
    destruct (Nat.lt_ge_cases i p); [|destruct (Nat.lt_ge_cases i (p + List.length l1)); [|destruct (Nat.lt_ge_cases i (p + List.length l1 + List.length l2))]].
    + rewrite !put_outside by lia. reflexivity.
    + rewrite put_outside, !put_inside by lia. rewrite app_nth1 by lia. reflexivity.
    + rewrite !put_inside by lia. rewrite app_nth2 by lia. f_equal. lia.
    + rewrite !put_outside by lia. reflexivity.
Qed.

(** A manager whose open file can take bytes: number of the file, its name, position, address. *)
Record ready (m : fmgr) (i : nat) (name : nat) (p v : Z) : Prop := mkReady {
  re_file : exists g, active m = Some (i, g) /\ g_name g = name /\ g_open g = true /\ g_fail g = false /\ g_pos g = p /\ g_virtual g = v;
  re_pos : 0 <= p }.
Definition contents (m : fmgr) (name : nat) : list Z := match f_disk m name with Some c => c | None => [] end.

Lemma in_int64_iff x : in_int64 x = true <-> is_int64 x.
Proof. unfold in_int64, is_int64. lia. Qed.

(** What writing the bytes does. *)
Record wrote (m m' : fmgr) (i name : nat) (p v : Z) (l : list Z) : Prop := mkWrote {
  wr_ready : ready m' i name (p + Z.of_nat (List.length l)) (v + Z.of_nat (List.length l));
  wr_contents : contents m' name = put_bytes (contents m name) (Z.to_nat p) l;
  wr_other : forall other, other <> name -> f_disk m' other = f_disk m other;
  wr_big : f_big m' = f_big m;
  wr_header : get_header m' = get_header m;
  wr_queued : f_queued m' = f_queued m;
  wr_printed : f_printed m' = f_printed m }.

Lemma write_ready m i name p v l : ready m i name p v -> is_int64 (v + Z.of_nat (List.length l)) ->
  exists m', write m l = ROk (m', true) /\ wrote m m' i name p v l.
Proof.
  intros [(g & Ea & <- & Eo & Ef & <- & <-) P] B. unfold write. rewrite Ea, Eo. cbn [negb].
  rewrite (proj2 (in_int64_iff _)) by exact B. rewrite Ef. eexists. split; [reflexivity|].
  unfold active in Ea. destruct (f_active m) as [j|] eqn:Fa; [|discriminate]. destruct (nth_error (f_files m) j) as [g'|] eqn:Eg; [|discriminate].
  injection Ea as -> ->.
  assert (A : forall d g', active (set_disk (put_file m i g') d) = Some (i, g')).
  { intros d g'. unfold active. cbn [set_disk put_file f_active f_files]. rewrite Fa, set_file_nth, Nat.eqb_refl, Eg. reflexivity. }
  constructor.
  - constructor; [|lia]. eexists. split; [apply A|]. unfold stream_seek, set_virtual. cbn. rewrite Ef. cbn. auto.
  - unfold contents. cbn [set_disk f_disk put_file]. unfold disk_set. rewrite Nat.eqb_refl. reflexivity.
  - intros other Ho. cbn [set_disk f_disk put_file]. unfold disk_set. destruct (Nat.eqb_spec other (g_name g)); [congruence|reflexivity].
  - reflexivity.
  - unfold get_header. rewrite A. unfold active. rewrite Fa, Eg. unfold stream_seek, set_virtual. cbn. rewrite Ef. reflexivity.
  - reflexivity.
  - reflexivity.
Qed.
Lemma wrote_nil m i name p v : ready m i name p v -> wrote m m i name p v [].
Proof. intros R. constructor; auto. cbn. rewrite !Z.add_0_r. exact R. Qed.
Lemma wrote_app m m1 m2 i name p v a b : 0 <= p -> wrote m m1 i name p v a ->
  wrote m1 m2 i name (p + Z.of_nat (List.length a)) (v + Z.of_nat (List.length a)) b -> wrote m m2 i name p v (a ++ b).
Proof.
  intros P [R1 C1 O1 B1 H1 Q1 P1] [R2 C2 O2 B2 H2 Q2 P2]. constructor; try congruence.
  - rewrite app_length, Nat2Z.inj_add, !Z.add_assoc. exact R2.
  - rewrite C2, C1, <- put_app. f_equal. lia.
  - intros other Ho. rewrite O2, O1 by exact Ho. reflexivity.
Qed.
Lemma unit_ready own_big m i name p v n x : ready m i name p v -> (n = 1 \/ n = 2 \/ n = 4 \/ n = 8)%nat -> is_int64 (v + Z.of_nat n) ->
  exists m', one_unit own_big m n x = ROk (m', true) /\ wrote m m' i name p v (encode_bytes (f_big m) n x).
Proof.
  intros R Hn B. rewrite (unit_write own_big m n x Hn). apply write_ready; [exact R|]. rewrite encode_bytes_length. exact B.
Qed.
Lemma history_ready writable own_big files d m h c : Forall fresh files -> file_history writable own_big files d m h ->
  where_to (header_of files) h = Some c -> cu_real c = true ->
  ready m (cu_file c) (name_of files (cu_file c)) (cu_phys c) (cu_phys c + cu_header c) /\ f_big m = big_endian h.
Proof.
  intros F H Ec Er. pose proof (history_inv _ _ _ _ _ _ F H) as I. pose proof (active_cursor _ _ _ I) as A. rewrite Ec in A.
  destruct A as (g & Ea & Hg & [Ah Av Ap Ao Apos]). destruct (Apos Er) as [Hp Hf]. split; [|apply (fi_big _ _ _ I)].
  constructor; [|exact Ap]. exists g. split; [exact Ea|]. split; [|rewrite Ao; auto].
  unfold name_of. destruct (nth_error files (cu_file c)) as [g0|] eqn:E0.
  - apply (sf_name _ _ (fi_same _ _ _ I _ _ _ E0 Hg)).
  - apply nth_error_None in E0. rewrite <- (fi_length _ _ _ I) in E0. apply nth_error_None in E0. congruence.
Qed.
