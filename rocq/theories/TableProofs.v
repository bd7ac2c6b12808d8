(** Encoding tables: the trie is a map from texts, and encoding is greedy. *)

Require Import ZArith List Bool Lia ZifyBool PeanoNat.
From Verif Require Import Ints IntsLemmas Res TableModel TableSpec TableIface.
Import ListNotations.
Local Open Scope Z_scope.

(* ---- the trie as a map ---- *)

Fixpoint walk (l : list ((nat * Z) * nat)) (n : nat) (k : list Z) : option nat :=
  match k with
  | [] => Some n
  | c :: k => match find_edge l n c with Some m => walk l m k | None => None end
  end.

Definition val (t : trie) (n : nat) (k : list Z) : option nat :=
  match walk (tr_lookup t) n k with Some m => node_value t m | None => None end.

(** [name n] is the text that leads to n. *)
Record wf (t : trie) (name : nat -> list Z) : Prop := mkWf {
  wf_root : (0 < List.length (tr_nodes t))%nat;
  wf_name0 : name 0%nat = [];
  wf_edge : forall n c m, find_edge (tr_lookup t) n c = Some m ->
     (n < List.length (tr_nodes t))%nat /\ (m < List.length (tr_nodes t))%nat /\ name m = name n ++ [c] }.

Lemma wf_new : wf new_trie (fun _ => []).
Proof. constructor; cbn; try reflexivity; try lia. discriminate. Qed.

Lemma walk_name t name n k m : wf t name -> walk (tr_lookup t) n k = Some m -> name m = name n ++ k.
Proof.
  intros W. revert n. induction k as [|c k IH]; intros n H; cbn [walk] in H.
  - injection H as <-. rewrite app_nil_r. reflexivity.
  - destruct (find_edge (tr_lookup t) n c) as [p|] eqn:E; [|discriminate].
    destruct (wf_edge _ _ W _ _ _ E) as (_ & _ & N). apply IH in H. rewrite H, N, <- app_assoc. reflexivity.
Qed.
Lemma walk_lt t name n k m : wf t name -> (n < List.length (tr_nodes t))%nat ->
  walk (tr_lookup t) n k = Some m -> (m < List.length (tr_nodes t))%nat.
Proof.
  intros W. revert n. induction k as [|c k IH]; intros n L H; cbn [walk] in H.
  - injection H as <-. exact L.
  - destruct (find_edge (tr_lookup t) n c) as [p|] eqn:E; [|discriminate].
    destruct (wf_edge _ _ W _ _ _ E) as (_ & L2 & _). apply (IH p L2 H).
Qed.
Lemma walk_app l n a b : walk l n (a ++ b) = match walk l n a with Some m => walk l m b | None => None end.
Proof. revert n. induction a as [|c a IH]; intros n; [reflexivity|]. cbn [walk app]. destruct (find_edge l n c); [apply IH|reflexivity]. Qed.

Lemma descend_walk l k : forall n m r, descend l n k = (m, r) ->
  exists p, k = p ++ r /\ walk l n p = Some m /\ (forall c r', r = c :: r' -> find_edge l m c = None).
Proof.
  induction k as [|c k IH]; intros n m r H; cbn [descend] in H.
  - injection H as <- <-. exists []. repeat split. discriminate.
  - destruct (find_edge l n c) as [p|] eqn:E.
    + destruct (IH _ _ _ H) as (q & -> & Hw & Hs). exists (c :: q). cbn [walk app]. rewrite E. auto.
    + injection H as <- <-. exists []. repeat split. intros c0 r' [= <- <-]. exact E.
Qed.

(** One new edge. *)
Definition grow (t : trie) (n : nat) (c : Z) : trie :=
  mkTrie (tr_nodes t ++ [None]) (((n, c), List.length (tr_nodes t)) :: tr_lookup t).

Lemma grow_edge t name n c : wf t name -> (n < List.length (tr_nodes t))%nat -> find_edge (tr_lookup t) n c = None ->
  (forall p d q, find_edge (tr_lookup t) p d = Some q -> find_edge (tr_lookup (grow t n c)) p d = Some q) /\
  (forall p d, find_edge (tr_lookup t) p d = None -> (p, d) <> (n, c) -> find_edge (tr_lookup (grow t n c)) p d = None) /\
  find_edge (tr_lookup (grow t n c)) n c = Some (List.length (tr_nodes t)) /\
  (forall d, find_edge (tr_lookup (grow t n c)) (List.length (tr_nodes t)) d = None).
Proof.
  intros W L E. cbn [grow tr_lookup find_edge]. repeat split.
  - intros p d q Hq. destruct (Nat.eqb_spec p n) as [->|]; [|exact Hq].
    destruct (Z.eqb_spec d c) as [->|]; [congruence|exact Hq].
  - intros p d Hq Hne. destruct (Nat.eqb_spec p n) as [->|]; [|exact Hq].
    destruct (Z.eqb_spec d c) as [->|]; [congruence|exact Hq].
  - rewrite Nat.eqb_refl, Z.eqb_refl. reflexivity.
  - intros d. destruct (Nat.eqb_spec (List.length (tr_nodes t)) n) as [Q0|]; [lia|]. cbn [andb].
    destruct (find_edge (tr_lookup t) (List.length (tr_nodes t)) d) eqn:Q; [|reflexivity].
    apply (wf_edge _ _ W) in Q. lia.
Qed.

Lemma node_value_app t x n : (n < List.length (tr_nodes t))%nat ->
  nth n (tr_nodes t ++ [x]) None = node_value t n.
Proof. intros L. unfold node_value. rewrite app_nth1 by lia. reflexivity. Qed.

Lemma grow_spec t name n c : wf t name -> (n < List.length (tr_nodes t))%nat -> find_edge (tr_lookup t) n c = None ->
  exists name', wf (grow t n c) name' /\ (forall m, (m < List.length (tr_nodes t))%nat -> name' m = name m) /\
    name' (List.length (tr_nodes t)) = name n ++ [c] /\
    (forall k, val (grow t n c) 0 k = val t 0 k).
Proof.
  intros W L E. destruct (grow_edge t name n c W L E) as (G1 & G2 & G3 & G4).
  set (m := List.length (tr_nodes t)) in *.
  exists (fun i => if Nat.eqb i m then name n ++ [c] else name i).
  assert (N : forall i, (i < m)%nat -> (if Nat.eqb i m then name n ++ [c] else name i) = name i).
  { intros i Hi. destruct (Nat.eqb_spec i m); [lia|reflexivity]. }
  split; [|split; [exact N|split; [rewrite Nat.eqb_refl; reflexivity|]]].
  - constructor.
    + cbn [grow tr_nodes]. rewrite app_length. cbn. lia.
    + rewrite N; [apply (wf_name0 _ _ W)|]. pose proof (wf_root _ _ W). fold m in H. lia.
    + intros p d q Hq. cbn [grow tr_nodes]. rewrite app_length. cbn [List.length]. fold m.
      destruct (find_edge (tr_lookup t) p d) as [q'|] eqn:Q.
      * rewrite (G1 _ _ _ Q) in Hq. injection Hq as ->. destruct (wf_edge _ _ W _ _ _ Q) as (A & B & C).
        fold m in A, B. rewrite !N by lia. repeat split; [lia|lia|exact C].
      * destruct (Nat.eq_dec p n) as [->|Hp]; [destruct (Z.eq_dec d c) as [->|Hd]|].
        -- rewrite G3 in Hq. injection Hq as <-. rewrite Nat.eqb_refl. rewrite N by lia. repeat split; lia.
        -- rewrite G2 in Hq by congruence. discriminate.
        -- rewrite G2 in Hq by congruence. discriminate.
  - assert (K : forall k p, (p < m)%nat ->
        (forall q, walk (tr_lookup t) p k = Some q -> walk (tr_lookup (grow t n c)) p k = Some q) /\
        (walk (tr_lookup t) p k = None -> walk (tr_lookup (grow t n c)) p k = None \/ walk (tr_lookup (grow t n c)) p k = Some m)).
    { induction k as [|d k IH]; intros p Hp.
      - split; [auto|discriminate].
      - cbn [walk]. destruct (find_edge (tr_lookup t) p d) as [q'|] eqn:Q.
        + rewrite (G1 _ _ _ Q). apply IH. apply (wf_edge _ _ W) in Q. lia.
        + split; [discriminate|]. intros _.
          destruct (Nat.eq_dec p n) as [->|Hpn]; [destruct (Z.eq_dec d c) as [->|Hd]|].
          * rewrite G3. destruct k as [|d' k]; [right; reflexivity|]. cbn [walk]. rewrite G4. left; reflexivity.
          * rewrite G2 by congruence. left; reflexivity.
          * rewrite G2 by congruence. left; reflexivity. }
    intros k. unfold val. destruct (K k 0%nat) as [K1 K2]; [apply (wf_root _ _ W)|].
    destruct (walk (tr_lookup t) 0 k) as [q|] eqn:Q.
    + rewrite (K1 _ eq_refl). unfold node_value at 1. cbn [grow tr_nodes]. apply node_value_app.
      apply (walk_lt t name 0 k); [exact W|apply (wf_root _ _ W)|exact Q].
    + destruct (K2 eq_refl) as [-> | ->]; [reflexivity|]. unfold node_value. cbn [grow tr_nodes].
      unfold m. rewrite app_nth2 by lia. rewrite Nat.sub_diag. reflexivity.
Qed.

Lemma extend_spec r : forall t name n, wf t name -> (n < List.length (tr_nodes t))%nat ->
  (forall c r', r = c :: r' -> find_edge (tr_lookup t) n c = None) ->
  exists t' m name', extend t n r = (t', m) /\ wf t' name' /\ (m < List.length (tr_nodes t'))%nat /\
    name' m = name n ++ r /\ (forall k, val t' 0 k = val t 0 k) /\
    (forall p, walk (tr_lookup t) 0 p = Some n -> walk (tr_lookup t') 0 (p ++ r) = Some m).
Proof.
  induction r as [|c r IH]; intros t name n W L E.
  - exists t, n, name. cbn [extend]. rewrite app_nil_r.
    split; [reflexivity|split; [exact W|split; [exact L|split; [reflexivity|split; [reflexivity|]]]]].
    intros p H. rewrite app_nil_r. exact H.
  - cbn [extend]. fold (grow t n c).
    destruct (grow_spec t name n c W L (E c r eq_refl)) as (name' & W' & N & Nm & V).
    destruct (grow_edge t name n c W L (E c r eq_refl)) as (G1 & G2 & G3 & G4).
    destruct (IH (grow t n c) name' (List.length (tr_nodes t)) W') as (t'' & m & name'' & X & W'' & L'' & N'' & V'' & P'').
    + cbn [grow tr_nodes]. rewrite app_length. cbn. lia.
    + intros d r' _. apply G4.
    + exists t'', m, name''. split; [exact X|split; [exact W''|split; [exact L''|split; [|split]]]].
      * rewrite N'', Nm, <- app_assoc. reflexivity.
      * intros k. rewrite V'', V. reflexivity.
      * intros p Hp. change (c :: r) with ([c] ++ r). rewrite app_assoc. apply P''.
        rewrite walk_app.
        assert (Hg : forall p a b, walk (tr_lookup t) a p = Some b -> walk (tr_lookup (grow t n c)) a p = Some b).
        { clear - G1. induction p as [|d p IH]; intros a b H; [exact H|]. cbn [walk] in *.
          destruct (find_edge (tr_lookup t) a d) as [q|] eqn:Q; [|discriminate]. rewrite (G1 _ _ _ Q). apply IH. exact H. }
        rewrite (Hg _ _ _ Hp). cbn [walk]. rewrite G3. reflexivity.
Qed.

Lemma set_nth_length {A} (l : list A) n x : List.length (set_nth l n x) = List.length l.
Proof. revert n. induction l as [|y l IH]; intros n; [reflexivity|]. destruct n; cbn; [reflexivity|rewrite IH; reflexivity]. Qed.
Lemma set_nth_nth {A} (l : list A) n x m d : (n < List.length l)%nat ->
  nth m (set_nth l n x) d = if Nat.eqb m n then x else nth m l d.
Proof.
  revert n m. induction l as [|y l IH]; intros n m L; [cbn in L; lia|].
  destruct n as [|n]; cbn [set_nth].
  - destruct m; reflexivity.
  - destruct m as [|m]; [reflexivity|]. cbn [nth Nat.eqb]. apply IH. cbn in L. lia.
Qed.

Lemma cstr_id k : ~ In 0 k -> cstr k = k.
Proof.
  induction k as [|c k IH]; intros H; [reflexivity|]. cbn [cstr].
  destruct (Z.eqb_spec c 0) as [->|]; [exfalso; apply H; left; reflexivity|].
  rewrite IH; [reflexivity|]. intros Hin. apply H. right. exact Hin.
Qed.

(** Insertion updates the map at one text. *)
Lemma insert_spec t name k v : wf t name -> ~ In 0 k ->
  exists name', wf (insert t k v) name' /\ val (insert t k v) 0 k = Some v /\
    forall k', k' <> k -> val (insert t k v) 0 k' = val t 0 k'.
Proof.
  intros W H0. unfold insert. rewrite cstr_id by exact H0.
  destruct (descend (tr_lookup t) 0 k) as [n r] eqn:D.
  destruct (descend_walk _ _ _ _ _ D) as (p & -> & Hw & Hs).
  pose proof (walk_lt t name 0 p n W (wf_root _ _ W) Hw) as L.
  destruct (extend_spec r t name n W L Hs) as (t' & m & name' & X & W' & L' & N' & V' & P').
  rewrite X. exists name'. specialize (P' p Hw).
  assert (Nv : forall q, node_value (mkTrie (set_nth (tr_nodes t') m (Some v)) (tr_lookup t')) q
               = if Nat.eqb q m then Some v else node_value t' q).
  { intros q. unfold node_value. cbn [tr_nodes]. apply set_nth_nth. exact L'. }
  split; [|split].
  - destruct W' as [A B C]. constructor; cbn [tr_nodes tr_lookup]; rewrite ?set_nth_length; assumption.
  - unfold val. cbn [tr_lookup]. rewrite P', Nv, Nat.eqb_refl. reflexivity.
  - intros k' Hk. rewrite <- V'. unfold val. cbn [tr_lookup].
    destruct (walk (tr_lookup t') 0 k') as [q|] eqn:Q; [|reflexivity].
    rewrite Nv. destruct (Nat.eqb_spec q m) as [->|]; [|reflexivity].
    exfalso. apply Hk. pose proof (walk_name t' name' _ _ _ W' Q) as A. pose proof (walk_name t' name' _ _ _ W' P') as B.
    rewrite (wf_name0 _ _ W') in A, B. cbn [app] in A, B. congruence.
Qed.

Lemma find_from_spec t text : forall n best,
  (exists k r v, text = k ++ r /\ val t n k = Some v /\ find_from t n text best = Some v /\
      forall k' r', text = k' ++ r' -> val t n k' <> None -> (List.length k' <= List.length k)%nat) \/
  ((forall k' r', text = k' ++ r' -> val t n k' = None) /\ find_from t n text best = best).
Proof.
  induction text as [|c text IH]; intros n best.
  - cbn [find_from]. destruct (node_value t n) as [v|] eqn:E.
    + left. exists [], [], v. repeat split; [exact E|]. intros k' r' H _. symmetry in H. apply app_eq_nil in H.
      destruct H as [-> _]. reflexivity.
    + right. split; [|reflexivity]. intros k' r' H. symmetry in H. apply app_eq_nil in H.
      destruct H as [-> _]. exact E.
  - cbn [find_from]. set (b := match node_value t n with Some v => Some v | None => best end).
    destruct (find_edge (tr_lookup t) n c) as [m|] eqn:Q.
    + assert (V : forall k, val t n (c :: k) = val t m k) by (intros k; unfold val; cbn [walk]; rewrite Q; reflexivity).
      destruct (IH m b) as [(k & r & v & E1 & E2 & E3 & E4)|[E1 E2]].
      * left. exists (c :: k), r, v. rewrite E1. repeat split; [rewrite V; exact E2|rewrite <- E1; exact E3|].
        intros k' r' H Hv. destruct k' as [|c' k']; [cbn; lia|]. cbn [app] in H. injection H as <- H.
        rewrite V in Hv. cbn [List.length]. rewrite <- E1 in H. specialize (E4 _ _ H Hv). lia.
      * unfold b in E2. destruct (node_value t n) as [v|] eqn:E.
        -- left. exists [], (c :: text), v. repeat split; [exact E|exact E2|].
           intros k' r' H Hv. destruct k' as [|c' k']; [cbn; lia|]. cbn [app] in H. injection H as <- H.
           rewrite V in Hv. specialize (E1 _ _ H). congruence.
        -- right. split; [|exact E2]. intros k' r' H. destruct k' as [|c' k']; [exact E|].
           cbn [app] in H. injection H as <- H. rewrite V. exact (E1 _ _ H).
    + assert (V : forall k, val t n (c :: k) = None) by (intros k; unfold val; cbn [walk]; rewrite Q; reflexivity).
      unfold b. destruct (node_value t n) as [v|] eqn:E.
      * left. exists [], (c :: text), v. repeat split; [exact E|].
        intros k' r' H Hv. destruct k' as [|c' k']; [cbn; lia|]. cbn [app] in H. injection H as <- H. congruence.
      * right. split; [|reflexivity]. intros k' r' H. destruct k' as [|c' k']; [exact E|].
        cbn [app] in H. injection H as <- H. apply V.
Qed.

Lemma cstr_prefix k s : ~ In 0 k -> prefix k s <-> prefix k (cstr s).
Proof.
  revert s. induction k as [|c k IH]; intros s H0; [split; intros _; eexists; reflexivity|].
  assert (Hc : c <> 0) by (intros ->; apply H0; left; reflexivity).
  assert (Hk : ~ In 0 k) by (intros Q; apply H0; right; exact Q).
  split; intros [r Hr].
  - subst s. cbn [app cstr]. destruct (Z.eqb_spec c 0); [congruence|].
    destruct (proj1 (IH (k ++ r) Hk)) as [r' E]; [exists r; reflexivity|]. exists r'. rewrite E. reflexivity.
  - destruct s as [|d s]; [discriminate|]. cbn [cstr] in Hr. destruct (Z.eqb_spec d 0); [discriminate|].
    cbn [app] in Hr. injection Hr as -> Hr.
    destruct (proj2 (IH s Hk)) as [r' E]; [exists r; exact Hr|]. exists r'. rewrite E. reflexivity.
Qed.

(* ---- the table ---- *)

Definition slice (hex : list Z) (e : entry) (b : list Z) : Prop :=
  (e_pos e + e_len e <= List.length hex)%nat /\ firstn (e_len e) (skipn (e_pos e) hex) = b.

Lemma slice_app hex x e b : slice hex e b -> slice (hex ++ x) e b.
Proof.
  intros [L H]. split; [rewrite app_length; lia|]. rewrite skipn_app, firstn_app.
  replace (e_len e - List.length (skipn (e_pos e) hex))%nat with 0%nat by (rewrite skipn_length; lia).
  cbn [firstn]. rewrite app_nil_r. exact H.
Qed.
Lemma slice_new hex b n : slice (hex ++ b) (mkEntry (List.length hex) (List.length b) n) b.
Proof.
  split; cbn [e_pos e_len]; [rewrite app_length; lia|].
  rewrite skipn_app, skipn_all, Nat.sub_diag. cbn [app skipn]. apply firstn_all.
Qed.
Lemma slice_hex t e b : slice (t_hex t) e b -> hex_of t e = ROk b.
Proof. intros [L H]. unfold hex_of. rewrite (proj2 (Nat.leb_le _ _)) by lia. rewrite H. reflexivity. Qed.

Record inv (t : table) (h : entries) (term : list Z) : Prop := mkInv {
  in_wf : exists name, wf (t_trie t) name;
  in_some : forall k b, latest h k b -> exists i e, val (t_trie t) 0 k = Some i /\ nth_error (t_entries t) i = Some e /\
     e_value_len e = List.length k /\ slice (t_hex t) e b;
  in_none : forall k, ~ In k (map fst h) -> val (t_trie t) 0 k = None;
  in_term : slice (t_hex t) (t_term t) term }.

Lemma latest_in h k b : latest h k b -> In k (map fst h).
Proof. intros (h1 & h2 & -> & _). rewrite map_app. apply in_or_app. right. left. reflexivity. Qed.
Lemma in_latest h k : In k (map fst h) -> exists b, latest h k b.
Proof.
  induction h as [|[k' b'] h IH] using rev_ind; [intros []|].
  rewrite map_app. intros H.
  destruct (list_eq_dec Z.eq_dec k' k) as [->|Hne].
  - exists b', h, []. split; [reflexivity|]. intros [].
  - apply in_app_or in H. destruct H as [H|[H|[]]]; [|cbn in H; congruence].
    destruct (IH H) as (b & h1 & h2 & -> & Hn). exists b, h1, (h2 ++ [(k', b')]).
    split; [rewrite <- app_assoc; reflexivity|]. rewrite map_app. intros Q. apply in_app_or in Q.
    destruct Q as [Q|[Q|[]]]; [contradiction|cbn in Q; congruence].
Qed.
Lemma latest_snoc_same h k b b' : latest (h ++ [(k, b)]) k b' -> b' = b.
Proof.
  intros (h1 & h2 & E & Hn). destruct h2 as [|x h2] using rev_ind.
  - change ((k, b') :: []) with ([] ++ [(k, b')]) in E. cbn [app] in E.
    apply app_inj_tail in E. destruct E as [_ E]. congruence.
  - change ((k, b') :: h2 ++ [x]) with (((k, b') :: h2) ++ [x]) in E. rewrite app_assoc in E.
    apply app_inj_tail in E. destruct E as [_ E]. subst x. exfalso. apply Hn. rewrite map_app. apply in_or_app.
    right. left. reflexivity.
Qed.
Lemma latest_snoc_other h k b k' b' : k' <> k -> latest (h ++ [(k, b)]) k' b' -> latest h k' b'.
Proof.
  intros Hne (h1 & h2 & E & Hn). destruct h2 as [|x h2] using rev_ind.
  - apply app_inj_tail in E. destruct E as [_ E]. congruence.
  - change ((k', b') :: h2 ++ [x]) with (((k', b') :: h2) ++ [x]) in E. rewrite app_assoc in E.
    apply app_inj_tail in E. destruct E as [-> _]. exists h1, h2. split; [reflexivity|].
    intros Q. apply Hn. rewrite map_app. apply in_or_app. left. exact Q.
Qed.
Lemma latest_unique h k b b' : latest h k b -> latest h k b' -> b = b'.
Proof.
  induction h as [|[k1 b1] h IH] using rev_ind; intros H1 H2.
  - destruct H1 as (h1 & h2 & E & _). destruct h1; discriminate.
  - destruct (list_eq_dec Z.eq_dec k k1) as [->|Hne].
    + rewrite (latest_snoc_same _ _ _ _ H1), (latest_snoc_same _ _ _ _ H2). reflexivity.
    + apply IH; eapply latest_snoc_other; eassumption.
Qed.

Lemma inv_add t h term k b : inv t h term -> k <> [] -> ~ In 0 k -> inv (add_entry t b k) (h ++ [(k, b)]) term.
Proof.
  intros [[name W] Hs Hn Ht] Hk H0. unfold add_entry. destruct k as [|c k0]; [congruence|]. set (k := c :: k0) in *.
  destruct (insert_spec (t_trie t) name k (List.length (t_entries t)) W H0) as (name' & W' & V1 & V2).
  constructor; cbn [t_trie t_entries t_hex t_term].
  - exists name'. exact W'.
  - intros k' b' HL. destruct (list_eq_dec Z.eq_dec k' k) as [->|Hne].
    + apply latest_snoc_same in HL. subst b'. eexists _, _. split; [exact V1|]. split.
      * rewrite nth_error_app2 by lia. rewrite Nat.sub_diag. reflexivity.
      * split; [reflexivity|]. apply slice_new.
    + apply latest_snoc_other in HL; [|exact Hne]. destruct (Hs _ _ HL) as (i & e & E1 & E2 & E3 & E4).
      exists i, e. rewrite V2 by exact Hne. repeat split; try assumption.
      * rewrite nth_error_app1; [exact E2|]. apply nth_error_Some. congruence.
      * apply (slice_app _ _ _ _ E4).
      * apply (slice_app _ _ _ _ E4).
  - intros k' Hk'. rewrite map_app in Hk'. cbn [map fst] in Hk'.
    assert (k' <> k) by (intros ->; apply Hk'; apply in_or_app; right; left; reflexivity).
    rewrite V2 by assumption. apply Hn. intros Q. apply Hk'. apply in_or_app. left. exact Q.
  - apply slice_app. exact Ht.
Qed.

Lemma inv_term t h term b : inv t h term -> inv (set_termination t b) h b.
Proof.
  intros [Hw Hs Hn Ht]. constructor; cbn [set_termination t_trie t_entries t_hex t_term]; try assumption.
  - intros k b' HL. destruct (Hs _ _ HL) as (i & e & E1 & E2 & E3 & E4). exists i, e.
    split; [exact E1|split; [exact E2|split; [exact E3|apply slice_app; exact E4]]].
  - apply slice_new.
Qed.

Lemma inv_new : inv new_table [] [].
Proof.
  constructor.
  - exists (fun _ => []). apply wf_new.
  - intros k b (h1 & h2 & E & _). destruct h1; discriminate.
  - intros k _. destruct k as [|c k]; reflexivity.
  - split; [cbn; lia|reflexivity].
Qed.

(* ---- encoding ---- *)

Lemma prefix_length_eq k k' s : prefix k s -> prefix k' s -> List.length k = List.length k' -> k = k'.
Proof.
  intros [r ->] [r' E]. revert k' r' E. induction k as [|c k IH]; intros k' r' E L; destruct k' as [|c' k']; try discriminate; [reflexivity|].
  cbn [app] in E. injection E as -> E. f_equal. apply (IH _ _ E). cbn in L. lia.
Qed.

Lemma find_longest_spec t h term text : inv t h term -> good_entries h ->
  (exists k b rest i e, text = k ++ rest /\ latest h k b /\ longest h k text /\ find_longest (t_trie t) text = Some i /\
      nth_error (t_entries t) i = Some e /\ e_value_len e = List.length k /\ slice (t_hex t) e b) \/
  ((forall k, In k (map fst h) -> ~ prefix k text) /\ find_longest (t_trie t) text = None).
Proof.
  intros I G. unfold find_longest.
  assert (G' : forall k, In k (map fst h) -> ~ In 0 k).
  { intros k Hk. apply in_map_iff in Hk. destruct Hk as ([k' b] & <- & Hin). apply (G _ _ Hin). }
  assert (V : forall k v, val (t_trie t) 0 k = Some v -> In k (map fst h)).
  { intros k v Hv. destruct (in_dec (list_eq_dec Z.eq_dec) k (map fst h)) as [|Hn]; [assumption|].
    rewrite (in_none _ _ _ I _ Hn) in Hv. discriminate. }
  destruct (find_from_spec (t_trie t) (cstr text) 0 None) as [(k & r & v & E1 & E2 & E3 & E4)|[E1 E2]].
  - left. pose proof (V _ _ E2) as Hk. destruct (in_latest _ _ Hk) as [b HL].
    destruct (in_some _ _ _ I _ _ HL) as (i & e & F1 & F2 & F3 & F4).
    rewrite E2 in F1. injection F1 as ->.
    destruct (proj2 (cstr_prefix k text (G' _ Hk))) as [rest Er]; [exists r; exact E1|].
    exists k, b, rest, i, e. repeat split; try assumption; try apply F4.
    + exists rest. exact Er.
    + intros k' Hk' Hp. apply cstr_prefix in Hp; [|apply G'; exact Hk']. destruct Hp as [r' Er'].
      apply (E4 _ _ Er'). destruct (in_latest _ _ Hk') as [b' HL'].
      destruct (in_some _ _ _ I _ _ HL') as (i' & e' & F1' & _). congruence.
  - right. split; [|exact E2]. intros k Hk Hp. apply cstr_prefix in Hp; [|apply G'; exact Hk]. destruct Hp as [r Er].
    specialize (E1 _ _ Er). destruct (in_latest _ _ Hk) as [b HL].
    destruct (in_some _ _ _ I _ _ HL) as (i & e & F1 & _). congruence.
Qed.

Lemma encode_loop_spec t h term : inv t h term -> good_entries h ->
  forall fuel text acc, (List.length text < fuel)%nat ->
  (exists out, encodes h text out /\ encode_loop fuel t text acc = ROk (Some (acc ++ out))) \/
  ((forall out, ~ encodes h text out) /\ encode_loop fuel t text acc = ROk None).
Proof.
  intros I G. induction fuel as [|fuel IH]; intros text acc Hf; [lia|].
  cbn [encode_loop]. destruct text as [|c0 text0].
  - left. exists []. split; [constructor|rewrite app_nil_r; reflexivity].
  - set (text := c0 :: text0) in *.
    destruct (find_longest_spec t h term text I G) as [(k & b & rest & i & e & E & HL & Hlong & F1 & F2 & F3 & F4)|[Hn F1]].
    + rewrite F1, F2, (slice_hex _ _ _ F4). cbn [rbind]. rewrite F3, E, skipn_app, skipn_all, Nat.sub_diag. cbn [app skipn].
      assert (Hk : k <> []).
      { pose proof (latest_in _ _ _ HL) as Q. apply in_map_iff in Q. destruct Q as ([k' b'] & <- & Hin). apply (G _ _ Hin). }
      assert (Hl : (List.length rest < fuel)%nat).
      { rewrite E, app_length in Hf. destruct k; [congruence|]. cbn [List.length] in Hf. lia. }
      destruct (IH rest (acc ++ b) Hl) as [(out & He & R)|[Hno R]].
      * left. exists (b ++ out). split; [|rewrite R, app_assoc; reflexivity].
        constructor; [exact HL|rewrite <- E; exact Hlong|exact He].
      * right. split; [|exact R]. intros out He.
        rewrite <- E in He. unfold text in He. inversion He as [|k2 b2 rest2 out2 HL2 Hlong2 He2 Ek].
        fold text in Ek.
        assert (k2 = k).
        { rewrite Ek in Hlong2. destruct Hlong as (A1 & A2 & A3). destruct Hlong2 as (B1 & B2 & B3).
          apply (prefix_length_eq _ _ text B2 A2).
          pose proof (A3 _ B1 B2). pose proof (B3 _ A1 A2). lia. }
        subst k2. rewrite E in Ek. apply app_inv_head in Ek. subst rest2. apply (Hno _ He2).
    + rewrite F1. right. split; [|reflexivity]. intros out He. unfold text in He.
      inversion He as [|k2 b2 rest2 out2 HL2 Hlong2 He2 Ek]. apply (Hn k2); [apply (latest_in _ _ _ HL2)|].
      exists rest2. symmetry. exact Ek.
Qed.

Lemma encode_string_spec t h term w text : inv t h term -> good_entries h ->
  (exists out, encodes h text out /\ encode_string t text w = ROk (out ++ if w then term else [])) \/
  ((forall out, ~ encodes h text out) /\ encode_string t text w = ROk []).
Proof.
  intros I G. unfold encode_string.
  destruct (encode_loop_spec t h term I G (S (List.length text)) text [] ltac:(lia)) as [(out & He & ->)|[Hno ->]]; cbn [rbind app].
  - left. exists out. split; [exact He|]. destruct w; [|rewrite app_nil_r; reflexivity].
    rewrite (slice_hex _ _ _ (in_term _ _ _ I)). reflexivity.
  - right. split; [exact Hno|reflexivity].
Qed.

Lemma encodes_unique h : good_entries h -> forall text out, encodes h text out -> forall out', encodes h text out' -> out = out'.
Proof.
  intros G text out H. induction H as [|k b rest out HL Hlong He IH]; intros out' H'.
  - inversion H' as [|k b rest out HL _ _ Ek]; [reflexivity|]. exfalso. apply app_eq_nil in Ek. destruct Ek as [-> _].
    apply latest_in in HL. apply in_map_iff in HL. destruct HL as ([k' b'] & E & Hin). cbn in E. subst k'. destruct (G _ _ Hin). congruence.
  - remember (k ++ rest) as text eqn:Et. destruct H' as [|k2 b2 rest2 out2 HL2 Hlong2 He2].
    + symmetry in Et. apply app_eq_nil in Et. destruct Et as [-> _].
      apply latest_in in HL. apply in_map_iff in HL. destruct HL as ([k' b'] & E & Hin). cbn in E. subst k'. destruct (G _ _ Hin). congruence.
    + assert (k2 = k).
      { destruct Hlong as (A1 & A2 & A3). destruct Hlong2 as (B1 & B2 & B3).
        apply (prefix_length_eq _ _ _ B2 A2). pose proof (A3 _ B1 B2). pose proof (B3 _ A1 A2). lia. }
      subst k2. apply app_inv_head in Et. subst rest2. f_equal; [apply (latest_unique h k); assumption|apply IH; exact He2].
Qed.

(* ---- loading ---- *)

Lemma hex_digit_value d c : hex_digit d c -> hex_value c = Some d /\ c <> 61 /\ c <> 42 /\ c <> 47 /\ 0 <= d < 16.
Proof.
  intros [[Hd ->]|[Hd [-> | ->]]]; unfold hex_value.
  - replace ((65 <=? d + 48) && (d + 48 <=? 90)) with false by lia.
    replace ((97 <=? d + 48) && (d + 48 <=? 102)) with false by lia.
    replace ((48 <=? d + 48) && (d + 48 <=? 57)) with true by lia. repeat split; try lia. f_equal. lia.
  - replace ((65 <=? d - 10 + 97) && (d - 10 + 97 <=? 90)) with false by lia.
    replace ((97 <=? d - 10 + 97) && (d - 10 + 97 <=? 102)) with true by lia. repeat split; try lia. f_equal. lia.
  - replace ((65 <=? d - 10 + 65) && (d - 10 + 65 <=? 90)) with true by lia.
    replace ((97 <=? d - 10 + 65 + 32) && (d - 10 + 65 + 32 <=? 102)) with true by lia. repeat split; try lia. f_equal. lia.
Qed.

Lemma parse_hex_text b cs : hex_text b cs -> parse_hex cs = Some b /\ List.length cs = (2 * List.length b)%nat /\ ~ In 61 cs.
Proof.
  induction 1 as [|b bs c1 c2 cs Hb H1 H2 H IH]; [repeat split; intros []|].
  destruct IH as (IH1 & IH2 & IH3).
  destruct (hex_digit_value _ _ H1) as (V1 & N1 & _ & _ & R1). destruct (hex_digit_value _ _ H2) as (V2 & N2 & _ & _ & R2).
  cbn [parse_hex]. rewrite V1, V2, IH1. repeat split.
  - f_equal. f_equal. rewrite shiftl_mul by lia. rewrite u8_small by lia.
    rewrite (lor_mul_pow2_small (b / 16) (b mod 16) 4) by lia. pose proof (Z.div_mod b 16). lia.
  - cbn [List.length]. lia.
  - intros [Q|[Q|Q]]; congruence.
Qed.

Lemma find_eq_app a k : ~ In 61 a -> find_eq (a ++ 61 :: k) = Some (a, k).
Proof.
  induction a as [|c a IH]; intros H; [reflexivity|]. cbn [app find_eq].
  destruct (Z.eqb_spec c 61) as [->|]; [exfalso; apply H; left; reflexivity|].
  rewrite IH; [reflexivity|]. intros Q. apply H. right. exact Q.
Qed.

Lemma load_line_spec t h term x line : inv t h term -> good_entries (mappings [x]) -> written x line ->
  inv (load_line t line) (h ++ mappings [x]) (match x with Terminator b => b | _ => term end).
Proof.
  intros I G W. destruct W as [text| |b cs Hx Hb|k b cs Hx Hb Hk]; cbn [mappings flat_map app]; rewrite ?app_nil_r.
  - cbn [load_line Z.eqb Pos.eqb]. exact I.
  - exact I.
  - destruct (parse_hex_text _ _ Hx) as (P & L & N).
    cbn [load_line Z.eqb Pos.eqb]. rewrite L.
    replace (2 * List.length b =? 0)%nat with false by (symmetry; apply Nat.eqb_neq; lia).
    replace (2 * MAXHEXLENGTH <? 2 * List.length b)%nat with false by (symmetry; apply Nat.ltb_ge; unfold MAXHEXLENGTH; lia).
    cbn [orb]. rewrite P. apply inv_term with (1 := I).
  - destruct (parse_hex_text _ _ Hx) as (P & L & N).
    pose proof Hx as Hx0. destruct Hx as [|b1 bs c1 c2 cs Hb1 H1 H2 H]; [cbn in Hb; lia|].
    destruct (hex_digit_value _ _ H1) as (_ & _ & N1 & N2 & _).
    set (cs' := c1 :: c2 :: cs) in *. change (cs' ++ 61 :: k) with (c1 :: (c2 :: cs) ++ 61 :: k).
    unfold load_line. replace (c1 =? 42) with false by lia. replace (c1 =? 47) with false by lia.
    change (c1 :: (c2 :: cs) ++ 61 :: k) with (cs' ++ 61 :: k). unfold split_eq. rewrite find_eq_app by exact N.
    rewrite L.
    replace (2 * List.length (b1 :: bs) =? 0)%nat with false by (symmetry; apply Nat.eqb_neq; lia).
    replace (2 * MAXHEXLENGTH <? 2 * List.length (b1 :: bs))%nat with false by (symmetry; apply Nat.ltb_ge; unfold MAXHEXLENGTH; lia).
    destruct (G k (b1 :: bs) (or_introl eq_refl)) as [_ H0].
    replace (List.length k =? 0)%nat with false by (symmetry; apply Nat.eqb_neq; destruct k; [congruence|cbn; lia]).
    cbn [orb]. rewrite P. apply inv_add; assumption.
Qed.

Lemma mappings_app a b : mappings (a ++ b) = mappings a ++ mappings b.
Proof. apply flat_map_app. Qed.

Lemma load_spec xs lines : Forall2 written xs lines -> good_entries (mappings xs) ->
  inv (load new_table lines) (mappings xs) (terminator xs).
Proof.
  intros F G. unfold load, terminator.
  assert (K : forall t h term, inv t h term ->
    inv (fold_left load_line lines t) (h ++ mappings xs)
        (fold_left (fun acc x => match x with Terminator b => b | _ => acc end) xs term)).
  { induction F as [|x line xs lines W F IH]; intros t h term I.
    - cbn [fold_left mappings flat_map]. rewrite app_nil_r. exact I.
    - cbn [fold_left].
      change (mappings (x :: xs)) with (mappings ([x] ++ xs)) in G. rewrite mappings_app in G.
      assert (G1 : good_entries (mappings [x])) by (intros k b Hin; apply (G k b); apply in_or_app; left; exact Hin).
      assert (G2 : good_entries (mappings xs)) by (intros k b Hin; apply (G k b); apply in_or_app; right; exact Hin).
      change (mappings (x :: xs)) with (mappings ([x] ++ xs)). rewrite mappings_app, app_assoc.
      apply (IH G2). apply load_line_spec; assumption. }
  apply (K _ [] [0]). apply (inv_term _ _ []). exact inv_new.
Qed.

Lemma built_inv t h term : built t h term -> good_entries h -> inv t h term.
Proof.
  induction 1 as [|t h term k b B IH|t h term b B IH]; intros G.
  - exact inv_new.
  - destruct (G k b) as [G1 G2]; [apply in_or_app; right; left; reflexivity|].
    apply inv_add; [|exact G1|exact G2]. apply IH. intros k' b' Hin. apply (G k' b'). apply in_or_app. left. exact Hin.
  - apply (inv_term _ _ term). apply IH. exact G.
Qed.
