(** Proofs about the templates. *)

Require Import ZArith String Ascii List Bool Lia DecimalString.
From Verif Require Import ExprModel LexModel TplModel TplSpec.
Import ListNotations.
Local Open Scope char_scope.
Local Open Scope list_scope.

(** ** Finding a name *)
Lemma at_start_spec : forall o s, at_start o s = true <-> exists r, s = o ++ r.
Proof.
  induction o as [|c o IH]; intros s.
  - split; [intros _; exists s; reflexivity | reflexivity].
  - destruct s as [|d r].
    + split; [discriminate | intros (x & E); discriminate E].
    + change (at_start (c :: o) (d :: r)) with (Ascii.eqb c d && at_start o r). rewrite andb_true_iff, Ascii.eqb_eq, IH. split.
      * intros (-> & x & ->). exists x. reflexivity.
      * intros (x & E). injection E as -> ->. split; [reflexivity | exists x; reflexivity].
Qed.

(** The text does not go on to the end of a gap. *)
Definition guarded (t : chars) : Prop := forall n b, t = n ++ "%" :: b -> forallb is_alnum n = true -> False.

Lemma alnum_percent : is_alnum "%" = false.
Proof. reflexivity. Qed.

Lemma no_match : forall n c x, forallb is_alnum n = true -> (c = "%" -> guarded x) -> at_start (percent n) (c :: x) = false.
Proof.
  intros n c x A G. destruct (at_start (percent n) (c :: x)) eqn:E; [|reflexivity].
  apply at_start_spec in E. destruct E as (r & E). unfold percent in E.
  rewrite <- app_comm_cons, <- app_assoc in E. change (["%"] ++ r) with ("%" :: r) in E.
  assert (Ec : c = "%") by congruence. assert (Ex : x = n ++ "%" :: r) by congruence.
  destruct (G Ec n r Ex A).
Qed.

Lemma replace_skip : forall old new a t, replace_from old new (length a) (a ++ t) = replace_from old new 0 t.
Proof. induction a as [|c a IH]; intros t; [reflexivity | exact (IH t)]. Qed.

Lemma replace_cons : forall old new c x, at_start old (c :: x) = false -> replace_from old new 0 (c :: x) = c :: replace_from old new 0 x.
Proof. intros old new c x E. change (replace_from old new 0 (c :: x)) with (if at_start old (c :: x) then new ++ replace_from old new (length old - 1) x else c :: replace_from old new 0 x). rewrite E. reflexivity. Qed.

Lemma replace_hit : forall old new c x, at_start old (c :: x) = true -> replace_from old new 0 (c :: x) = new ++ replace_from old new (length old - 1) x.
Proof. intros old new c x E. change (replace_from old new 0 (c :: x)) with (if at_start old (c :: x) then new ++ replace_from old new (length old - 1) x else c :: replace_from old new 0 x). rewrite E. reflexivity. Qed.

(** Text without the start of a gap is kept. *)
Lemma pass : forall n v t s, forallb is_alnum n = true -> (forall a b, s = a ++ "%" :: b -> guarded (b ++ t)) ->
  replace_from (percent n) v 0 (s ++ t) = s ++ replace_from (percent n) v 0 t.
Proof.
  intros n v t s A. induction s as [|c s IH]; intros G; [reflexivity|].
  rewrite <- !app_comm_cons. rewrite replace_cons.
  - f_equal. apply IH. intros a b E. apply (G (c :: a) b). rewrite E. reflexivity.
  - apply no_match; [exact A|]. intros ->. apply (G [] s). reflexivity.
Qed.

(** ** The text while the values are put in *)
Inductive ip := L (s : chars) | G (n : chars) | V (v : chars).
Definition raw1 (p : ip) : chars := match p with L s => s | G n => percent n | V v => v end.
Definition raw (l : list ip) : chars := concat (map raw1 l).

Definition safe (l : list ip) : bool :=
  match l with [] => true | L s :: _ => existsb (fun c => negb (is_alnum c)) s | _ :: _ => false end.
Fixpoint ok (l : list ip) : Prop :=
  match l with
  | [] => True
  | L s :: k => no_percent s = true /\ ok k
  | G n :: k => forallb is_alnum n = true /\ safe k = true /\ ok k
  | V v :: k => quiet v /\ safe k = true /\ ok k
  end.

Lemma no_percent_in : forall s a b, no_percent s = true -> s = a ++ "%" :: b -> False.
Proof.
  intros s a b N ->. unfold no_percent in N. rewrite forallb_app in N. apply andb_prop in N. destruct N as (_ & N). discriminate N.
Qed.

Lemma alnum_in : forall s a b, forallb is_alnum s = true -> s = a ++ "%" :: b -> False.
Proof. intros s a b N ->. rewrite forallb_app in N. apply andb_prop in N. destruct N as (_ & N). discriminate N. Qed.

Lemma guarded_lit : forall s t, no_percent s = true -> existsb (fun c => negb (is_alnum c)) s = true -> guarded (s ++ t).
Proof.
  induction s as [|c s IH]; intros t N E; [discriminate E|].
  intros n b Q A. change (negb (Ascii.eqb c "%") && no_percent s = true) in N. apply andb_prop in N. destruct N as (N1 & N2).
  apply negb_true_iff, Ascii.eqb_neq in N1.
  change (negb (is_alnum c) || existsb (fun c => negb (is_alnum c)) s = true) in E.
  destruct n as [|d n].
  - apply N1. rewrite <- app_comm_cons in Q. change ([] ++ "%" :: b) with ("%" :: b) in Q. congruence.
  - rewrite <- !app_comm_cons in Q. assert (Ed : c = d) by congruence. assert (Q' : s ++ t = n ++ "%" :: b) by congruence.
    change (is_alnum d && forallb is_alnum n = true) in A. apply andb_prop in A. destruct A as (A1 & A2). subst d.
    rewrite A1 in E. exact (IH t N2 E n b Q' A2).
Qed.

Lemma guarded_safe : forall l, ok l -> safe l = true -> guarded (raw l).
Proof.
  intros [|[s|n|v] l] O S; try discriminate S.
  - intros n b E _. destruct n; discriminate E.
  - change (raw (L s :: l)) with (s ++ raw l). destruct O as (N & _). apply guarded_lit; assumption.
Qed.

Lemma guarded_value : forall v t a b, quiet v -> guarded t -> v = a ++ "%" :: b -> guarded (b ++ t).
Proof.
  intros v t a b Q Gt E n c F A. destruct (app_eq_app _ _ _ _ F) as (l & [(E1 & E2) | (E1 & E2)]).
  - destruct l as [|d l].
    + apply (Gt [] c); [symmetry; exact E2 | reflexivity].
    + rewrite <- app_comm_cons in E2. assert (d = "%") by congruence. subst d b. exact (Q a n l E A).
  - apply (Gt l c E2). rewrite E1, forallb_app in A. apply andb_prop in A. apply A.
Qed.

Lemma name_unique : forall n m x y, forallb is_alnum n = true -> forallb is_alnum m = true -> m ++ "%" :: x = n ++ "%" :: y -> m = n.
Proof.
  intros n m x y N M E. destruct (app_eq_app _ _ _ _ E) as (l & [(E1 & E2) | (E1 & E2)]); destruct l as [|c l];
    try (rewrite app_nil_r in E1; congruence); rewrite <- app_comm_cons in E2; assert (c = "%") by congruence; subst c;
    exfalso; [exact (alnum_in _ _ _ M E1) | exact (alnum_in _ _ _ N E1)].
Qed.

Definition put (n v : chars) (p : ip) : ip := match p with G m => if list_eq_dec ascii_dec n m then V v else p | _ => p end.

Lemma replace_put : forall n v l, forallb is_alnum n = true -> ok l -> replace_from (percent n) v 0 (raw l) = raw (map (put n v) l).
Proof.
  intros n v l A. induction l as [|p l IH]; intros O; [reflexivity|].
  change (raw (p :: l)) with (raw1 p ++ raw l). change (raw (map (put n v) (p :: l))) with (raw1 (put n v p) ++ raw (map (put n v) l)).
  destruct p as [s|m|w].
  - destruct O as (N & O). rewrite pass; [rewrite (IH O); reflexivity | exact A |].
    intros a b E. destruct (no_percent_in _ _ _ N E).
  - destruct O as (M & S & O). unfold put. destruct (list_eq_dec ascii_dec n m) as [<-|D].
    + unfold raw1, percent at 2. rewrite <- app_comm_cons. rewrite replace_hit.
      * f_equal. replace (length (percent n) - 1) with (length (n ++ ["%"])) by (unfold percent; cbn [length]; lia).
        rewrite replace_skip. exact (IH O).
      * apply at_start_spec. exists (raw l). reflexivity.
    + unfold raw1, percent at 2 3. rewrite <- !app_comm_cons. rewrite replace_cons.
      * f_equal. rewrite pass; [rewrite (IH O); reflexivity | exact A |].
        intros a b E. assert (b = []) as ->.
        { destruct (app_eq_app _ _ _ _ E) as (k & [(E1 & E2) | (E1 & E2)]).
          - destruct k as [|d k].
            + change ([] ++ ["%"]) with ["%"] in E2. congruence.
            + rewrite <- app_comm_cons in E2. assert (d = "%") by congruence. subst d. destruct (alnum_in _ _ _ M E1).
          - destruct k as [|d k]; rewrite ?app_nil_l in E2; [congruence|]. destruct k; discriminate E2. }
        exact (guarded_safe l O S).
      * destruct (at_start (percent n) ("%" :: (m ++ ["%"]) ++ raw l)) eqn:T; [exfalso | reflexivity].
        apply at_start_spec in T. destruct T as (r & T). unfold percent in T. rewrite <- app_comm_cons, <- !app_assoc in T.
        apply D. symmetry. apply (name_unique n m (raw l) r A M). change (m ++ ["%"] ++ raw l = n ++ ["%"] ++ r). congruence.
  - destruct O as (Q & S & O). unfold put. rewrite pass; [unfold raw1; rewrite (IH O); reflexivity | exact A |].
    intros a b E. exact (guarded_value w (raw l) a b Q (guarded_safe l O S) E).
Qed.

Lemma ok_put : forall n v l, quiet v -> ok l -> ok (map (put n v) l).
Proof.
  intros n v l Q. assert (S : forall k, safe k = true -> safe (map (put n v) k) = true).
  { intros [|[s|m|w] k]; try discriminate; intros H; exact H. }
  induction l as [|[s|m|w] l IH]; intros O; [exact I | | |].
  - destruct O as (N & O). split; [exact N | exact (IH O)].
  - destruct O as (M & F & O). change (ok (put n v (G m) :: map (put n v) l)). unfold put at 1.
    destruct (list_eq_dec ascii_dec n m); (split; [assumption | split; [exact (S l F) | exact (IH O)]]).
  - destruct O as (W & F & O). split; [exact W | split; [exact (S l F) | exact (IH O)]].
Qed.

Definition fill (names values : list chars) (p : ip) : ip :=
  match p with G m => match value_of names values m with Some v => V v | None => p end | _ => p end.

Lemma parse_fill : forall names values l, Forall (fun n => forallb is_alnum n = true) names -> Forall quiet values -> ok l ->
  parseTemplate (raw l) (combine (map percent names) values) = raw (map (fill names values) l).
Proof.
  induction names as [|n names IH]; intros values l N Q O.
  - change (raw l = raw (map (fill [] values) l)). f_equal. rewrite <- (map_id l) at 1. apply map_ext. intros [s|m|v]; reflexivity.
  - destruct values as [|v values].
    + change (raw l = raw (map (fill (n :: names) []) l)). f_equal. rewrite <- (map_id l) at 1. apply map_ext. intros [s|m|v]; reflexivity.
    + apply Forall_cons_iff in N. destruct N as (N1 & N2). apply Forall_cons_iff in Q. destruct Q as (Q1 & Q2).
      change (parseTemplate (replaceAll (raw l) (percent n) v) (combine (map percent names) values) = raw (map (fill (n :: names) (v :: values)) l)).
      unfold replaceAll. rewrite (replace_put n v l N1 O). rewrite (IH values _ N2 Q2 (ok_put n v l Q1 O)). f_equal. rewrite map_map.
      apply map_ext. intros [s|m|w]; try reflexivity. unfold fill, put.
      change (value_of (n :: names) (v :: values) m) with (if list_eq_dec ascii_dec n m then Some v else value_of names values m).
      destruct (list_eq_dec ascii_dec n m); reflexivity.
Qed.

(** ** From the pieces *)
Definition inj (p : piece) : ip := match p with Lit s => L s | Gap n => G n end.

Lemma raw_written : forall ps, raw (map inj ps) = written ps.
Proof.
  induction ps as [|[s|n] ps IH]; [reflexivity | |].
  - change (s ++ raw (map inj ps) = s ++ written ps). rewrite IH. reflexivity.
  - change (percent n ++ raw (map inj ps) = percent n ++ written ps). rewrite IH. reflexivity.
Qed.

Lemma raw_filled : forall names values ps, raw (map (fill names values) (map inj ps)) = filled names values ps.
Proof.
  intros names values. induction ps as [|[s|n] ps IH]; [reflexivity | |].
  - change (s ++ raw (map (fill names values) (map inj ps)) = s ++ filled names values ps). rewrite IH. reflexivity.
  - change (raw1 (fill names values (G n)) ++ raw (map (fill names values) (map inj ps)) =
      match value_of names values n with Some v => v | None => "%" :: n ++ ["%"] end ++ filled names values ps).
    rewrite IH. unfold fill. destruct (value_of names values n); reflexivity.
Qed.

Fixpoint okb (ps : list piece) : bool :=
  match ps with
  | [] => true
  | Lit s :: k => no_percent s && okb k
  | Gap n :: k => forallb is_alnum n && safe (map inj k) && okb k
  end.
Lemma okb_ok : forall ps, okb ps = true -> ok (map inj ps).
Proof.
  induction ps as [|[s|n] ps IH]; intros H; [exact I | |].
  - change (no_percent s && okb ps = true) in H. apply andb_prop in H. destruct H as (A & B). split; [exact A | exact (IH B)].
  - change (forallb is_alnum n && safe (map inj ps) && okb ps = true) in H. apply andb_prop in H. destruct H as (H & B).
    apply andb_prop in H. destruct H as (A & C). split; [exact A | split; [exact C | exact (IH B)]].
Qed.

Definition eqc (a b : chars) : bool := if list_eq_dec ascii_dec a b then true else false.

Definition checked (e : string * list string) : bool :=
  okb (pieces (text (fst e))) && eqc (written (pieces (text (fst e)))) (text (fst e)) &&
  forallb (fun n => forallb is_alnum (text n)) (snd e).
Lemma all_checked : forallb checked templates = true.
Proof. vm_compute. reflexivity. Qed.

Lemma checked_in : forall t names, In (t, names) templates ->
  okb (pieces (text t)) = true /\ written (pieces (text t)) = text t /\ Forall (fun n => forallb is_alnum n = true) (map text names).
Proof.
  intros t names I. pose proof (proj1 (forallb_forall _ _) all_checked _ I) as H. unfold checked in H. cbn [fst snd] in H.
  apply andb_prop in H. destruct H as (H & C). apply andb_prop in H. destruct H as (A & B). split; [exact A | split].
  - unfold eqc in B. destruct (list_eq_dec ascii_dec (written (pieces (text t))) (text t)) as [E|]; [exact E | discriminate B].
  - apply Forall_forall. intros x X. apply in_map_iff in X. destruct X as (n & <- & X). exact (proj1 (forallb_forall _ _) C n X).
Qed.

Lemma template_filled : forall t names values, In (t, names) templates -> Forall quiet values ->
  parseTemplate (text t) (combine (map percent (map text names)) values) = filled (map text names) values (pieces (text t)).
Proof.
  intros t names values I Q. destruct (checked_in t names I) as (O & W & N). rewrite <- raw_filled.
  rewrite <- W at 1. rewrite <- raw_written. apply parse_fill; [exact N | exact Q | exact (okb_ok _ O)].
Qed.

Lemma macro_filled : forall t names values label, In (t, names) templates -> Forall quiet values -> no_percent label = true ->
  parseTemplate (preprocessMacro label (text t)) (combine (map percent (map text names)) values) =
  label ++ [":"; " "] ++ filled (map text names) values (pieces (text t)).
Proof.
  intros t names values label I Q P. destruct (checked_in t names I) as (O & W & N). rewrite <- raw_filled. unfold preprocessMacro.
  rewrite <- W at 1. rewrite <- raw_written. rewrite !app_assoc.
  change (parseTemplate (raw (L (label ++ [":"; " "]) :: map inj (pieces (text t)))) (combine (map percent (map text names)) values) =
    raw (map (fill (map text names) values) (L (label ++ [":"; " "]) :: map inj (pieces (text t))))).
  apply parse_fill; [exact N | exact Q |]. split; [|exact (okb_ok _ O)].
  unfold no_percent. rewrite forallb_app. fold (no_percent label). rewrite P. reflexivity.
Qed.

(** Every gap has a value, but for one in the function for ARM. *)
Definition gaps_known (e : string * list string) : bool :=
  forallb (fun p => match p with Gap n => existsb (eqc n) (map text (snd e)) | Lit _ => true end) (pieces (text (fst e))).
Lemma all_known : forallb (fun e => gaps_known e || String.eqb (fst e) ctorTemplate) templates = true.
Proof. vm_compute. reflexivity. Qed.

Lemma known_in : forall t names n, In (t, names) templates -> t <> ctorTemplate -> In (Gap n) (pieces (text t)) -> In n (map text names).
Proof.
  intros t names n I D P. pose proof (proj1 (forallb_forall _ _) all_known _ I) as H. apply orb_prop in H. destruct H as [H|H].
  - pose proof (proj1 (forallb_forall _ _) H _ P) as K. apply existsb_exists in K. destruct K as (x & X & E). unfold eqc in E.
    cbn [snd] in X. destruct (list_eq_dec ascii_dec n x) as [->|]; [exact X | discriminate E].
  - apply String.eqb_eq in H. destruct (D H).
Qed.

(** ** The text of an expression *)
Lemma quiet_free : forall s, no_percent s = true -> quiet s.
Proof. intros s N a n b E _. exact (no_percent_in _ _ _ N E). Qed.

Lemma quiet_sep : forall c s1 s2, is_alnum c = false -> c <> "%" -> quiet s1 -> quiet s2 -> quiet (s1 ++ c :: s2).
Proof.
  intros c s1 s2 C D Q1 Q2 a n b E A. destruct (app_eq_app _ _ _ _ E) as (l & [(E1 & E2) | (E1 & E2)]).
  - destruct l as [|d l]; [change ([] ++ c :: s2) with (c :: s2) in E2; apply D; congruence|].
    rewrite <- app_comm_cons in E2. assert (Ed : d = "%") by congruence. assert (E3 : n ++ "%" :: b = l ++ c :: s2) by congruence. subst d.
    destruct (app_eq_app _ _ _ _ E3) as (k & [(F1 & F2) | (F1 & F2)]).
    + destruct k as [|d k]; [change ([] ++ "%" :: b) with ("%" :: b) in F2; apply D; congruence|].
      rewrite <- app_comm_cons in F2. assert (d = c) by congruence. subst d. rewrite F1, forallb_app in A. apply andb_prop in A.
      destruct A as (_ & A). change (is_alnum c && forallb is_alnum k = true) in A. rewrite C in A. discriminate A.
    + destruct k as [|d k]; [change ([] ++ c :: s2) with (c :: s2) in F2; apply D; congruence|].
      rewrite <- app_comm_cons in F2. assert (d = "%") by congruence. subst d l. exact (Q1 a n k E1 A).
  - destruct l as [|d l]; [change ([] ++ "%" :: n ++ "%" :: b) with ("%" :: n ++ "%" :: b) in E2; apply D; congruence|].
    rewrite <- app_comm_cons in E2. assert (E3 : s2 = l ++ "%" :: n ++ "%" :: b) by congruence. exact (Q2 l n b E3 A).
Qed.

Lemma text_app : forall a b, text (a ++ b)%string = text a ++ text b.
Proof. induction a as [|c a IH]; intros b; [reflexivity|]. change (c :: text (a ++ b)%string = c :: text a ++ text b). rewrite IH. reflexivity. Qed.

Lemma quiet_uint : forall d, no_percent (text (NilEmpty.string_of_uint d)) = true.
Proof. induction d; [reflexivity | ..]; exact IHd. Qed.

Lemma quiet_int : forall z, quiet (text (int_text z)).
Proof.
  assert (U : forall d, no_percent (text (NilZero.string_of_uint d)) = true).
  { intros d. destruct d; [reflexivity | ..]; apply (quiet_uint _). }
  intros z. apply quiet_free. unfold int_text. destruct (Z.to_int z) as [d|d]; [apply U|].
  change (no_percent (text (NilZero.string_of_uint d)) = true). apply U.
Qed.

Ltac sep := apply quiet_sep; [reflexivity | discriminate | |].
Lemma quiet_nil : quiet [].
Proof. apply quiet_free. reflexivity. Qed.
Lemma quiet_paren : forall s, quiet s -> quiet ("(" :: s ++ [")"]).
Proof. intros s Q. change (quiet ([] ++ "(" :: (s ++ ")" :: []))). sep; [apply quiet_nil|]. sep; [exact Q | apply quiet_nil]. Qed.
Lemma quiet_head : forall c s, is_alnum c = false -> c <> "%" -> quiet s -> quiet (c :: s).
Proof. intros c s A D Q. change (quiet ([] ++ c :: s)). apply quiet_sep; auto using quiet_nil. Qed.

Definition mid (op : binop) : chars := removelast (tl (text (bin_text op))).
Lemma bin_mid : forall op, text (bin_text op) = " " :: mid op ++ [" "].
Proof. intros []; reflexivity. Qed.
Lemma quiet_mid : forall op, quiet (mid op).
Proof.
  intros op. destruct op; try (apply quiet_free; reflexivity).
  change (mid BMod) with ["%"]. intros a n b E _. destruct a as [|c [|d a]]; [|discriminate E|discriminate E].
  destruct n; discriminate E.
Qed.

Lemma quiet_bin : forall op a b, quiet a -> quiet b -> quiet (a ++ text (bin_text op) ++ b).
Proof.
  intros op a b A B. rewrite bin_mid. change (quiet (a ++ " " :: (mid op ++ [" "]) ++ b)). rewrite <- app_assoc.
  change (quiet (a ++ " " :: (mid op ++ " " :: b))). sep; [exact A|]. sep; [apply quiet_mid | exact B].
Qed.

Lemma expr_quiet : forall h e t ms, atoms_quiet h e -> to_text h e = OVal t ms -> quiet (text t).
Proof.
  intros h e. induction e as [| z | f | n fl sc | s | | op a IHa | op a IHa b IHb | c IHc a IHa b IHb | a IHa | n args]; intros t ms Q E; cbn [to_text] in E.
  - injection E as <- <-. apply quiet_nil.
  - injection E as <- <-. apply quiet_int.
  - injection E as <- <-. exact Q.
  - injection E as <- <-. exact Q.
  - injection E as <- <-. unfold escape_string. rewrite !text_app. change (text quote) with [ascii_of_nat 34].
    change (quiet ([] ++ ascii_of_nat 34 :: (text s ++ ascii_of_nat 34 :: []))). sep; [apply quiet_nil|]. sep; [exact Q | apply quiet_nil].
  - injection E as <- <-. apply quiet_free. reflexivity.
  - destruct (to_text h a) as [ta ma| |] eqn:Ea; try discriminate E. cbn [obind oret] in E. injection E as <- <-.
    change (quiet ("(" :: text (un_text op ++ ta ++ ")")%string)). rewrite !text_app. change (quiet ("(" :: (text (un_text op) ++ text ta ++ [")"]))). rewrite app_assoc. apply quiet_paren.
    pose proof (IHa ta ma Q eq_refl) as K. destruct op; (apply quiet_head; [reflexivity | discriminate | exact K]).
  - destruct Q as (Qa & Qb). destruct (to_text h a) as [ta ma| |] eqn:Ea; try discriminate E.
    destruct (to_text h b) as [tb mb| |] eqn:Eb; try discriminate E. cbn [obind oret] in E. injection E as <- <-.
    change (quiet ("(" :: text (ta ++ bin_text op ++ tb ++ ")")%string)). rewrite !text_app. change (quiet ("(" :: (text ta ++ text (bin_text op) ++ text tb ++ [")"]))).
    replace (text ta ++ text (bin_text op) ++ text tb ++ [")"]) with ((text ta ++ text (bin_text op) ++ text tb) ++ [")"]) by (rewrite <- !app_assoc; reflexivity).
    apply quiet_paren, quiet_bin; [exact (IHa ta ma Qa eq_refl) | exact (IHb tb mb Qb eq_refl)].
  - destruct Q as (Qc & Qa & Qb). destruct (to_text h c) as [tc mc| |] eqn:Ec; try discriminate E.
    destruct (to_text h a) as [ta ma| |] eqn:Ea; try discriminate E.
    destruct (to_text h b) as [tb mb| |] eqn:Eb; try discriminate E. cbn [obind oret] in E. injection E as <- <-.
    change (quiet ("(" :: text (tc ++ " ? " ++ ta ++ " : " ++ tb ++ ")")%string)). rewrite !text_app. change (quiet ("(" :: (text tc ++ " " :: ([] ++ "?" :: ([] ++ " " :: (text ta ++ " " :: ([] ++ ":" :: ([] ++ " " :: (text tb ++ ")" :: []))))))))).
    apply quiet_head; [reflexivity | discriminate |].
    sep; [exact (IHc tc mc Qc eq_refl)|]. sep; [apply quiet_nil|]. sep; [apply quiet_nil|].
    sep; [exact (IHa ta ma Qa eq_refl)|]. sep; [apply quiet_nil|]. sep; [apply quiet_nil|].
    sep; [exact (IHb tb mb Qb eq_refl) | apply quiet_nil].
  - destruct (to_text h a) as [ta ma| |] eqn:Ea; try discriminate E. cbn [obind oret] in E. injection E as <- <-.
    change (quiet ("(" :: text (degree_utf8 ++ ta ++ ")")%string)). rewrite !text_app. change (quiet ("(" :: ((ascii_of_nat 194 :: ascii_of_nat 176 :: text ta) ++ [")"]))). apply quiet_paren.
    apply quiet_head; [reflexivity | discriminate |]. apply quiet_head; [reflexivity | discriminate |]. exact (IHa ta ma Q eq_refl).
  - discriminate E.
Qed.
