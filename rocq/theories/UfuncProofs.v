(** Proofs about user functions. *)

Require Import ZArith Bool List String Lia Arith.
From Coq Require Import Floats.SpecFloat.
From Verif Require Import ExprModel ExprFuncModel ExprSpec ExprProofs ExprCmpProofs ExprFoldProofs ParseModel UfuncModel UfuncSpec.
Import ListNotations.
Local Open Scope string_scope.
Local Open Scope list_scope.

(** ** Parsing commutes with replacing parameters *)
Section Replace.
  Variable isfun : string -> bool.
  Variables file section : Z.
  Variable l : list (string * value).
  Hypothesis L : forall n v, replacement l n = Some v -> v <> VInvalid /\ isfun n = false /\ n <> ".".
  Notation parse := (parse isfun file section).
  Notation rp := (map (replace l)).
  Notation ip := (in_place (replacement l)).

  Definition rp_nt (nt : nonterm) : nonterm :=
    match nt with NArgs f acc => NArgs f (map ip acc) | NLoop n e => NLoop n (ip e) | _ => nt end.
  Definition rp_res (r : pres) : pres :=
    match r with POk e r => POk (ip e) (rp r) | PFail r => PFail (rp r) | PFuel => PFuel end.

  Ltac tok t := destruct t; cbn [replace]; try reflexivity;
    match goal with |- context [replacement l ?n] => let E := fresh "E" in destruct (replacement l n) as [[]|] eqn:E; cbn [value_token]; try reflexivity end.

  Lemma op_ident n s : op_at n (TIdent s) = None.
  Proof. do 11 (destruct n as [|n]; [reflexivity|]). reflexivity. Qed.
  Lemma op_value n v t : value_token v = Some t -> op_at n t = None.
  Proof. intros H. do 11 (destruct n as [|n]; [destruct v; cbn in H; try discriminate; injection H as <-; reflexivity|]). destruct v; cbn in H; try discriminate; injection H as <-; reflexivity. Qed.
  Lemma op_replace n ts : op_at n (peek (rp ts)) = op_at n (peek ts).
  Proof.
    destruct ts as [|t ts]; [reflexivity|]. cbn [map peek]. destruct t; try reflexivity. cbn [replace]. destruct (replacement l n0) as [v|]; [|reflexivity].
    destruct (value_token v) eqn:E; [|reflexivity]. rewrite op_ident. apply (op_value n v). exact E.
  Qed.
  Lemma unary_replace ts e : unary_at (peek (rp ts)) (ip e) = match unary_at (peek ts) e with Some e => Some (ip e) | None => None end.
  Proof. destruct ts as [|t ts]; [reflexivity|]. cbn [map peek]. tok t. Qed.
  Lemma tl_rp ts : tl (rp ts) = rp (tl ts).
  Proof. destruct ts; reflexivity. Qed.
  Lemma len_rp ts : List.length (rp ts) = List.length ts.
  Proof. apply map_length. Qed.

  Lemma parse_replace : forall k nt ts, parse k (rp_nt nt) (rp ts) = rp_res (parse k nt ts).
  Proof.
    induction k as [|k IH]; intros nt ts; [reflexivity|].
    destruct nt as [| |f acc|n|n e|]; cbn [rp_nt].
    - destruct ts as [|t ts]; [reflexivity|]. cbn [map]. destruct t; try reflexivity.
      + cbn [replace ParseModel.parse]. destruct (replacement l n) as [v|] eqn:E.
        * destruct (L n v E) as (V & _ & D). destruct (String.eqb_spec n "."); [congruence|]. cbn [rp_res in_place]. rewrite E. destruct v; try reflexivity. congruence.
        * cbn [rp_res]. destruct (String.eqb_spec n "."); cbn [in_place]; [reflexivity|]. rewrite E. reflexivity.
      + cbn [replace ParseModel.parse]. pose proof (IH NExpr ts) as Q. cbn [rp_nt] in Q. rewrite Q. clear Q.
        destruct (parse k NExpr ts) as [e r|r|]; cbn [rp_res]; [|rewrite tl_rp; reflexivity|reflexivity].
        destruct r as [|t r]; [reflexivity|]. cbn [map]. tok t.
    - assert (P : parse k NPrimary (rp ts) = rp_res (parse k NPrimary ts)) by apply (IH NPrimary).
      cbn [ParseModel.parse]. destruct ts as [|t ts]; [exact P|]. destruct t; try exact P.
      destruct ts as [|u ts].
      { cbn [map replace] in *. destruct (replacement l n) as [[]|]; exact P. }
      destruct u; try (cbn [map replace] in *; destruct (replacement l n) as [[]|]; try exact P; match goal with |- context [replacement l ?m] => destruct (replacement l m) as [[]|]; exact P | _ => idtac end; exact P).
      cbn [map replace]. destruct (replacement l n) as [v|] eqn:E.
      + destruct (L n v E) as (V & F & D). rewrite F. destruct v; try congruence; cbn [value_token]; cbn [map replace] in P; rewrite E in P; cbn [value_token] in P; exact P.
      + cbn [map replace] in P. rewrite E in P. destruct (isfun n); [|exact P]. exact (IH (NArgs n []) ts).
    - cbn [ParseModel.parse].
      assert (Stop : forall ts, match map ip acc, rp ts with
                | [], _ | _, TComma :: _ =>
                  match parse k NExpr (match map ip acc with [] => rp ts | _ => tl (rp ts) end) with
                  | POk e r => parse k (NArgs f (e :: map ip acc)) r
                  | PFail r => PFail r
                  | PFuel => PFuel
                  end
                | _, _ => PFail (tl (rp ts))
                end = rp_res match acc, ts with
                | [], _ | _, TComma :: _ =>
                  match parse k NExpr (match acc with [] => ts | _ => tl ts end) with
                  | POk e r => parse k (NArgs f (e :: acc)) r
                  | PFail r => PFail r
                  | PFuel => PFuel
                  end
                | _, _ => PFail (tl ts)
                end).
      { clear ts. intros ts. destruct acc as [|a acc]; cbn [map].
        - pose proof (IH NExpr ts) as Q. cbn [rp_nt] in Q. rewrite Q. destruct (parse k NExpr ts) as [e r|r|]; cbn [rp_res]; try reflexivity. exact (IH (NArgs f [e]) r).
        - destruct ts as [|t ts]; [reflexivity|]. destruct t; try reflexivity.
          + cbn [map replace tl]. destruct (replacement l n) as [[]|]; reflexivity.
          + cbn [map replace tl]. pose proof (IH NExpr ts) as Q. cbn [rp_nt] in Q. rewrite Q. destruct (parse k NExpr ts) as [e r|r|]; cbn [rp_res]; try reflexivity. exact (IH (NArgs f (e :: a :: acc)) r). }
      specialize (Stop ts). destruct ts as [|t ts]; [exact Stop|].
      destruct t; try exact Stop.
      + cbn [map replace] in Stop |- *. destruct (replacement l n) as [[]|]; exact Stop.
      + cbn [map replace rp_res in_place]. rewrite map_rev. reflexivity.
    - destruct n as [|n].
      + cbn [ParseModel.parse]. pose proof (IH NPostfix ts) as Q. cbn [rp_nt] in Q. rewrite Q. clear Q.
        destruct (parse k NPostfix ts) as [e r|r|]; cbn [rp_res]; try reflexivity. rewrite tl_rp. pose proof (IH NPostfix (tl r)) as Q. cbn [rp_nt] in Q. rewrite Q. clear Q.
        destruct (parse k NPostfix (tl r)) as [e r'|r'|]; cbn [rp_res]; try reflexivity. rewrite unary_replace. destruct (unary_at (peek r) e); reflexivity.
      + cbn [ParseModel.parse]. pose proof (IH (NBin n) ts) as Q. cbn [rp_nt] in Q. rewrite Q. clear Q.
        destruct (parse k (NBin n) ts) as [e r|r|]; cbn [rp_res]; try reflexivity. exact (IH (NLoop (S n) e) r).
    - cbn [ParseModel.parse]. rewrite op_replace. destruct (op_at n (peek ts)) as [op|]; [|reflexivity]. rewrite tl_rp.
      pose proof (IH (NBin (n - 1)) (tl ts)) as Q. cbn [rp_nt] in Q. rewrite Q. clear Q.
      destruct (parse k (NBin (n - 1)) (tl ts)) as [e2 r|r|]; cbn [rp_res]; try reflexivity. exact (IH (NLoop n (EBin op e e2)) r).
    - cbn [ParseModel.parse]. pose proof (IH (NBin 10) ts) as Q. cbn [rp_nt] in Q. rewrite Q. clear Q.
      destruct (parse k (NBin 10) ts) as [c r|r|]; cbn [rp_res]; try reflexivity.
      destruct r as [|t r]; [reflexivity|]. cbn [map]. destruct t; cbn [replace]; try reflexivity.
      + destruct (replacement l n) as [[]|] eqn:E; cbn [value_token rp_res map replace]; rewrite ?E; reflexivity.
      + pose proof (IH NExpr r) as Q. cbn [rp_nt] in Q. rewrite Q. clear Q. destruct (parse k NExpr r) as [a r1|r1|]; cbn [rp_res]; try reflexivity.
        destruct r1 as [|t r1]; [reflexivity|]. cbn [map]. destruct t; cbn [replace]; try reflexivity.
        * destruct (replacement l n) as [[]|] eqn:E; cbn [value_token rp_res map replace tl]; reflexivity.
        * pose proof (IH NExpr r1) as Q. cbn [rp_nt] in Q. rewrite Q. clear Q. destruct (parse k NExpr r1) as [b r2|r2|]; reflexivity.
  Qed.
  Lemma parse_expression_replace ts :
    parse_expression isfun file section (rp ts) = match parse_expression isfun file section ts with Some (e, r) => Some (ip e, rp r) | None => None end.
  Proof.
    unfold parse_expression. rewrite len_rp. pose proof (parse_replace (32 * List.length ts + 32) NExpr ts) as Q. cbn [rp_nt] in Q. rewrite Q.
    destruct (parse _ NExpr ts); reflexivity.
  Qed.
End Replace.

(** ** What a call means *)
Definition base (arch : list (string * func_entry)) (n : string) : option func_entry := lookup (builtin_functions ++ arch) n.
Definition defined_as (defs : list udef) (n : string) : option udef := find (fun d => String.eqb (ud_name d) n) defs.
Definition user (arch : list (string * func_entry)) (defs : list udef) (file section : Z) (n : string) : option (list string * expr) :=
  match defined_as defs n with
  | Some d => match parse_expression (known arch defs) file section (ud_body d) with Some (e, []) => Some (ud_params d, e) | _ => None end
  | None => None
  end.
Definition no_error (ms : list msg) : Prop := forall t, ~ In (Err t) ms.
Lemma no_error_app a b : no_error (a ++ b) -> no_error a /\ no_error b.
Proof. intros H. split; intros t I; apply (H t); apply in_or_app; auto. Qed.
Lemma in_place_none e : in_place none e = e.
Proof.
  induction e using expr_ind'; cbn [in_place none]; congruence || (try reflexivity).
  f_equal. induction H as [|a l H _ IH]; [reflexivity|]. cbn [map]. rewrite H, IH. reflexivity.
Qed.
Lemma lookup_app a b n : lookup (a ++ b) n = match lookup a n with Some e => Some e | None => lookup b n end.
Proof. induction a as [|[k e] a IH]; [reflexivity|]. cbn [app lookup]. destruct (String.eqb k n); [reflexivity|exact IH]. Qed.
Lemma base_kind arch n fe : In arch [[]; mips_functions; arm_functions] -> base arch n = Some fe -> forall f, fe_fun fe <> FUser f.
Proof.
  intros A B. apply lookup_in in B. destruct B as [k B].
  assert (G : Forall (fun p : string * func_entry => match fe_fun (snd p) with FUser _ => False | _ => True end) (builtin_functions ++ arch)).
  { apply Forall_app. split; [repeat constructor|]. cbn [In] in A. destruct A as [<-|[<-|[<-|[]]]]; repeat constructor. }
  rewrite Forall_forall in G. specialize (G _ B). cbn [snd] in G. intros f E. rewrite E in G. exact G.
Qed.

Section Calls.
  Variable arch : list (string * func_entry).
  Variable defs : list udef.
  Variables file section : Z.
  Variable st : estate.
  Hypothesis A : In arch [[]; mips_functions; arm_functions].
  (** No parameter has the name of a function. *)
  Hypothesis W : forall d, In d defs -> Forall (fun p => known arch defs p = false /\ p <> ".") (ud_params d).
  Notation fn := (functions arch defs file section).
  Notation means := (means (base arch) (user arch defs file section) st).
  Notation means_all := (means_all (base arch) (user arch defs file section) st).

  Definition run (k : nat) (d : udef) : estate -> list value -> outcome value :=
    match k with O => fun _ _ => OVal VInvalid [msg_too_deep] | S k => execute arch defs file section (fn k) d end.
  Lemma fn_lookup k n : fn k n = match base arch n with
    | Some fe => Some fe
    | None => match defined_as defs n with Some d => Some (user_entry (List.length (ud_params d)) (run k d)) | None => None end
    end.
  Proof.
    assert (E : fn k = make_registry arch (entries defs (run k))) by (destruct k; reflexivity). rewrite E. unfold make_registry. rewrite app_assoc, lookup_app.
    fold (base arch n). destruct (base arch n); [reflexivity|]. unfold entries, defined_as. clear.
    induction defs as [|d l IH]; [reflexivity|]. cbn [map lookup find]. destruct (String.eqb (ud_name d) n); [reflexivity|exact IH].
  Qed.
  Lemma fn_registry k : exists users, fn k = make_registry arch users.
  Proof. exists (entries defs (run k)). destruct k; reflexivity. Qed.

  Lemma bound_ok d vs : In d defs -> Forall (fun v => v <> VInvalid) vs ->
    forall n v, replacement (combine (ud_params d) vs) n = Some v -> v <> VInvalid /\ known arch defs n = false /\ n <> ".".
  Proof.
    intros D. specialize (W d D). revert vs W. induction (ud_params d) as [|p ps IH]; intros vs W1 V n v R; [discriminate|].
    destruct vs as [|x vs]; [discriminate|]. cbn [combine replacement] in R. inversion W1; subst. inversion V; subst. destruct (String.eqb_spec p n) as [->|].
    - injection R as <-. tauto.
    - apply (IH vs); assumption.
  Qed.
  Lemma execute_body k d vs : In d defs -> Forall (fun v => v <> VInvalid) vs ->
    execute arch defs file section (fn k) d st vs =
    match parse_expression (known arch defs) file section (ud_body d) with
    | None => OVal VInvalid [msg_not_parsed]
    | Some (e, rest) => obind (simplify (fn k) st false (in_place (bound (ud_params d) vs) e)) (fun '(e, _) =>
        match rest with [] => eval (fn k) st e | _ => OVal VInvalid [msg_unconsumed] end)
    end.
  Proof.
    intros D V. unfold execute, instantiate. rewrite (parse_expression_replace _ _ _ _ (bound_ok d vs D V)).
    destruct (parse_expression _ _ _ (ud_body d)) as [[e [|t rest]]|]; reflexivity.
  Qed.
  Lemma folded_value k e e' c ms : simplify (fn k) st false e = OVal (e', c) ms ->
    result_of (eval (fn k) st e') = result_of (eval (fn k) st e) /\ incl (messages_of (eval (fn k) st e)) (ms ++ messages_of (eval (fn k) st e')).
  Proof.
    intros H. destruct (fn_registry k) as [users U]. rewrite U in *. exact (proj1 (fold_preserves arch users false st e e' c ms A H) st eq_refl).
  Qed.

  Lemma list_values k r l : Forall (fun a => forall v ms, eval (fn k) st (in_place r a) = OVal v ms -> no_error ms -> means r a v) l ->
    forall o ms, eval_list (eval (fn k) st) (map (in_place r) l) = OVal o ms -> no_error ms -> exists vs, o = Some vs /\ means_all r l vs /\ Forall (fun v => v <> VInvalid) vs /\ List.length vs = List.length l.
  Proof.
    induction 1 as [|a l Ha _ IH]; intros o ms E N; cbn [map eval_list] in E.
    - injection E as <- <-. exists []. repeat split; constructor.
    - apply obind_val in E. destruct E as (v & m1 & m2 & E1 & E2 & ->). apply no_error_app in N. destruct N as [N1 N2].
      destruct (is_valid v) eqn:V; [|injection E2 as <- <-; exfalso; apply (N2 "Invalid parameter"); left; reflexivity].
      apply obind_val in E2. destruct E2 as (o1 & m3 & m4 & E3 & E4 & ->). apply no_error_app in N2. destruct N2 as [N2 _].
      destruct (IH _ _ E3 N2) as (vs & -> & M & F & Ln). injection E4 as <- <-. exists (v :: vs). split; [reflexivity|].
      assert (v <> VInvalid) by (intros ->; discriminate).
      split; [constructor; eauto|]. split; [constructor; assumption|]. cbn [List.length]. congruence.
  Qed.
  Lemma labels_of r l : forall ls, label_args st (map (in_place r) l) = Some ls ->
    Forall2 (fun a x => exists n f s, a = EIdent n f s /\ r n = None /\ x = s_label st n f s) l ls.
  Proof.
    induction l as [|a l IH]; intros ls H; cbn [map label_args] in H; [injection H as <-; constructor|].
    destruct a as [| | |n f s| | | | | | |]; try discriminate. cbn [in_place] in H. destruct (r n) as [v|] eqn:R; [destruct v; discriminate|].
    destruct (label_args st (map (in_place r) l)) as [ls1|]; [|discriminate]. injection H as <-. constructor; [eauto 10|auto].
  Qed.

  Lemma call_sound : forall k r e v ms, eval (fn k) st (in_place r e) = OVal v ms -> no_error ms -> means r e v.
  Proof.
    induction k as [k IHk] using lt_wf_ind. intros r e. induction e as [|z|q|nm fl sc|tx| |op a IHa|op a b IHa IHb|c a b IHc IHa IHb|a IHa|n l IHl] using expr_ind'; intros v ms H N; cbn [in_place eval] in H.
    - injection H as <- <-. constructor.
    - injection H as <- <-. constructor.
    - injection H as <- <-. constructor.
    - destruct (r nm) as [x|] eqn:R.
      + rewrite eval_const in H. injection H as <- <-. constructor. exact R.
      + cbn [eval] in H. unfold eval_ident in H. destruct (s_label st nm fl sc) as [lb|] eqn:S.
        * destruct (l_defined lb) eqn:D; [injection H as <- <-; eapply m_label; eassumption|]. injection H as <- <-. exfalso. apply (N "Undefined label"). left. reflexivity.
        * injection H as <- <-. exfalso. apply (N "Invalid label name"). left. reflexivity.
    - injection H as <- <-. constructor.
    - injection H as <- <-. constructor.
    - apply obind_val in H. destruct H as (x & m1 & m2 & E1 & E2 & ->). apply no_error_app in N. eapply m_un; [eapply IHa; [exact E1|tauto]|exact E2].
    - apply obind_val in H. destruct H as (x & m1 & m2 & E1 & E2 & ->). apply no_error_app in N. destruct N as [N1 N2].
      apply obind_val in E2. destruct E2 as (y & m3 & m4 & E2 & E3 & ->). apply no_error_app in N2.
      eapply m_bin; [eapply IHa; [exact E1|tauto]|eapply IHb; [exact E2|tauto]|exact E3].
    - apply obind_val in H. destruct H as (x & m1 & m2 & E1 & E2 & ->). apply no_error_app in N. destruct N as [N1 N2].
      destruct (v_eq (c_host (s_ctx st)) x (VInt 0)) eqn:V.
      + eapply m_no; [eapply IHc; [exact E1|tauto]|exact V|eapply IHb; [exact E2|tauto]].
      + eapply m_yes; [eapply IHc; [exact E1|tauto]|exact V|eapply IHa; [exact E2|tauto]].
    - apply obind_val in H. destruct H as (x & m1 & m2 & E1 & E2 & ->). injection E2 as <- <-. eapply m_text. exact E1.
    - unfold call_function in H. rewrite fn_lookup in H. rewrite map_length in H. destruct (base arch n) as [fe|] eqn:B.
      + destruct (Nat.ltb_spec (List.length l) (fe_min fe)); [injection H as <- <-; exfalso; apply (N "Not enough parameters"); left; reflexivity|].
        destruct (Nat.ltb_spec (fe_max fe) (List.length l)); [injection H as <- <-; exfalso; apply (N "Too many parameters"); left; reflexivity|].
        destruct (fe_fun fe) as [f|f|f] eqn:K.
        * apply obind_val in H. destruct H as (o & m1 & m2 & E1 & E2 & ->). apply no_error_app in N. destruct N as [N1 N2].
          destruct (list_values k r l IHl _ _ E1 N1) as (vs & -> & M & _ & _). eapply m_value; eauto.
        * destruct (label_args st (map (in_place r) l)) as [ls|] eqn:La; [|injection H as <- <-; exfalso; apply (N "Invalid parameter, expecting identifier"); left; reflexivity].
          eapply m_labels; eauto using labels_of.
        * exfalso. exact (base_kind arch n fe A B f K).
      + destruct (defined_as defs n) as [d|] eqn:D; [|injection H as <- <-; exfalso; apply (N "Unknown function"); left; reflexivity].
        cbn [user_entry fe_min fe_max fe_fun] in H.
        destruct (Nat.ltb_spec (List.length l) (List.length (ud_params d))); [injection H as <- <-; exfalso; apply (N "Not enough parameters"); left; reflexivity|].
        destruct (Nat.ltb_spec (List.length (ud_params d)) (List.length l)); [injection H as <- <-; exfalso; apply (N "Too many parameters"); left; reflexivity|].
        apply obind_val in H. destruct H as (o & m1 & m2 & E1 & E2 & ->). apply no_error_app in N. destruct N as [N1 N2].
        destruct (list_values k r l IHl _ _ E1 N1) as (vs & -> & M & V & _).
        destruct k as [|k]; cbn [run] in E2; [injection E2 as <- <-; exfalso; apply (N2 "too deep"); left; reflexivity|].
        assert (Dn : In d defs) by (apply find_some in D; tauto).
        rewrite (execute_body k d vs Dn V) in E2. destruct (parse_expression (known arch defs) file section (ud_body d)) as [[e rest]|] eqn:Pe;
          [|injection E2 as <- <-; exfalso; apply (N2 "Failed to parse user function expression"); left; reflexivity].
        apply obind_val in E2. destruct E2 as ([e' cc] & m3 & m4 & E2 & E3 & ->). apply no_error_app in N2. destruct N2 as [N2 N3].
        destruct rest as [|t rest]; [|injection E3 as <- <-; exfalso; apply (N3 "Unconsumed tokens after parsing user function expresion"); left; reflexivity].
        destruct (folded_value k _ e' cc m3 E2) as [R I]. rewrite E3 in R, I.
        destruct (eval (fn k) st (in_place (bound (ud_params d) vs) e)) as [v1 m5| |] eqn:E5; cbn [result_of messages_of] in R, I; try discriminate.
        assert (v1 = v) as -> by congruence.
        eapply m_user; [exact B|unfold user; rewrite D, Pe; reflexivity|lia|exact M|].
        eapply (IHk k (Nat.lt_succ_diag_r k)); [exact E5|]. intros t T. apply I in T. apply in_app_or in T. destruct T as [T|T]; [exact (N2 t T)|exact (N3 t T)].
  Qed.

  (** The content of a function can not be folded with these arguments. *)
  Definition stuck : Prop := exists d vs k e, In d defs /\ List.length vs = List.length (ud_params d) /\
    parse_expression (known arch defs) file section (ud_body d) = Some (e, []) /\ forall x ms, simplify (fn k) st false (in_place (bound (ud_params d) vs) e) <> OVal x ms.
  Definition reached (r : env) (e : expr) (v : value) : Prop := exists k0, forall k, (k0 <= k)%nat -> (exists ms, eval (fn k) st (in_place r e) = OVal v ms) \/ stuck.
  Definition reached_all (r : env) (l : list expr) (vs : list value) : Prop := Forall (fun v => v <> VInvalid) vs /\ List.length vs = List.length l /\
    exists k0, forall k, (k0 <= k)%nat -> (exists ms, eval_list (eval (fn k) st) (map (in_place r) l) = OVal (Some vs) ms) \/ stuck.
  Lemma now r e v : (forall k, exists ms, eval (fn k) st (in_place r e) = OVal v ms) -> reached r e v.
  Proof. intros H. exists 0%nat. auto. Qed.
  Lemma labels_all r l ls : Forall2 (fun a x => exists n f s, a = EIdent n f s /\ r n = None /\ x = s_label st n f s) l ls -> label_args st (map (in_place r) l) = Some ls.
  Proof. induction 1 as [|a x l ls (n & f & s & -> & R & ->) _ IH]; [reflexivity|]. cbn [map in_place]. rewrite R. cbn [label_args]. rewrite IH. reflexivity. Qed.

  Scheme means_rec := Minimality for UfuncSpec.means Sort Prop with means_all_rec := Minimality for UfuncSpec.means_all Sort Prop.
  Ltac at_most := match goal with H : (?a <= ?k)%nat |- _ => idtac end.

  Lemma call_complete r e v : means r e v -> reached r e v.
  Proof.
    apply (means_rec (base arch) (user arch defs file section) st reached reached_all); clear r e v.
    - intros. apply now. intros k. eexists. reflexivity.
    - intros. apply now. intros k. eexists. reflexivity.
    - intros. apply now. intros k. eexists. reflexivity.
    - intros. apply now. intros k. eexists. reflexivity.
    - intros. apply now. intros k. eexists. reflexivity.
    - intros r n f s v R. apply now. intros k. exists []. cbn [in_place]. rewrite R. apply eval_const.
    - intros r n f s lb R S D. apply now. intros k. exists []. cbn [in_place]. rewrite R. cbn [eval]. unfold eval_ident. rewrite S, D. reflexivity.
    - intros r o a x v ms _ [k1 H1] E. exists k1. intros k K. destruct (H1 k K) as [[m1 Q1]|Q]; [left|right; exact Q].
      cbn [in_place eval]. rewrite Q1. cbn [obind]. rewrite E. eexists. reflexivity.
    - intros r o a b x y v ms _ [k1 H1] _ [k2 H2] E. exists (max k1 k2). intros k K. destruct (H1 k ltac:(lia)) as [[m1 Q1]|Q]; [|right; exact Q].
      destruct (H2 k ltac:(lia)) as [[m2 Q2]|Q]; [left|right; exact Q]. cbn [in_place eval]. rewrite Q1. cbn [obind]. rewrite Q2. cbn [obind]. unfold host_of in E. rewrite E. eexists. reflexivity.
    - intros r c a b x v _ [k1 H1] V _ [k2 H2]. exists (max k1 k2). intros k K. destruct (H1 k ltac:(lia)) as [[m1 Q1]|Q]; [|right; exact Q].
      destruct (H2 k ltac:(lia)) as [[m2 Q2]|Q]; [left|right; exact Q]. cbn [in_place eval]. rewrite Q1. cbn [obind]. unfold host_of in V. rewrite V, Q2. eexists. reflexivity.
    - intros r c a b x v _ [k1 H1] V _ [k2 H2]. exists (max k1 k2). intros k K. destruct (H1 k ltac:(lia)) as [[m1 Q1]|Q]; [|right; exact Q].
      destruct (H2 k ltac:(lia)) as [[m2 Q2]|Q]; [left|right; exact Q]. cbn [in_place eval]. rewrite Q1. cbn [obind]. unfold host_of in V. rewrite V, Q2. eexists. reflexivity.
    - intros r a t ms T. apply now. intros k. cbn [in_place eval]. unfold host_of in T. rewrite T. eexists. reflexivity.
    - intros r n l vs fe f v ms B K Ln _ (V & Lv & k1 & H1) E. exists k1. intros k Kk. destruct (H1 k Kk) as [[m1 Q1]|Q]; [left|right; exact Q].
      cbn [in_place eval]. unfold call_function. rewrite fn_lookup, B, map_length. destruct (Nat.ltb_spec (List.length l) (fe_min fe)); [lia|]. destruct (Nat.ltb_spec (fe_max fe) (List.length l)); [lia|].
      rewrite K, Q1. cbn [obind]. rewrite E. eexists. reflexivity.
    - intros r n l ls fe f v ms B K Ln F E. apply now. intros k. cbn [in_place eval]. unfold call_function. rewrite fn_lookup, B, map_length.
      destruct (Nat.ltb_spec (List.length l) (fe_min fe)); [lia|]. destruct (Nat.ltb_spec (fe_max fe) (List.length l)); [lia|]. rewrite K, (labels_all r l ls F), E. eexists. reflexivity.
    - intros r n l vs ps body v B U Ln _ (V & Lv & k1 & H1) _ [k2 H2]. exists (S (max k1 k2)). intros k Kk. destruct (H1 k ltac:(lia)) as [[m1 Q1]|Q]; [|right; exact Q].
      destruct k as [|k]; [lia|]. unfold user in U. destruct (defined_as defs n) as [d|] eqn:D; [|discriminate].
      destruct (parse_expression (known arch defs) file section (ud_body d)) as [[e [|t rest]]|] eqn:Pe; try discriminate. injection U as <- <-.
      assert (Dn : In d defs) by (apply find_some in D; tauto).
      cbn [in_place eval]. unfold call_function. rewrite fn_lookup, B, D, map_length. cbn [user_entry fe_min fe_max fe_fun].
      destruct (Nat.ltb_spec (List.length l) (List.length (ud_params d))); [lia|]. destruct (Nat.ltb_spec (List.length (ud_params d)) (List.length l)); [lia|].
      rewrite Q1. cbn [obind run]. rewrite (execute_body k d vs Dn V), Pe.
      destruct (simplify (fn k) st false (in_place (bound (ud_params d) vs) e)) as [[e' cc] m3| |] eqn:S.
      + cbn [obind]. destruct (H2 k ltac:(lia)) as [[m2 Q2]|Q]; [left|right; exact Q]. destruct (folded_value k _ e' cc m3 S) as [R _]. rewrite Q2 in R. cbn [result_of] in R.
        destruct (eval (fn k) st e') as [v1 m4| |]; cbn [result_of] in R; try discriminate. assert (v1 = v) as -> by congruence. eexists. reflexivity.
      + right. exists d, vs, k, e. repeat split; try assumption; [lia|]. intros x ms. rewrite S. discriminate.
      + right. exists d, vs, k, e. repeat split; try assumption; [lia|]. intros x ms. rewrite S. discriminate.
    - intros r. repeat split; [constructor|]. exists 0%nat. intros k _. left. eexists. reflexivity.
    - intros r a v l vs _ [k1 H1] Vv _ (V & Lv & k2 & H2). split; [constructor; assumption|]. split; [cbn [List.length]; congruence|]. exists (max k1 k2). intros k K.
      destruct (H1 k ltac:(lia)) as [[m1 Q1]|Q]; [|right; exact Q]. destruct (H2 k ltac:(lia)) as [[m2 Q2]|Q]; [left|right; exact Q].
      cbn [map eval_list]. rewrite Q1. cbn [obind]. replace (is_valid v) with true by (destruct v; try reflexivity; congruence).
      change ((fix go (l0 : list expr) : outcome (option (list value)) := match l0 with [] => oret (Some []) | a0 :: t => obind (eval (fn k) st a0) (fun v0 => if is_valid v0 then obind (go t) (fun r0 => oret match r0 with Some vs0 => Some (v0 :: vs0) | None => None end) else OVal None [msg_invalid_param]) end) (map (in_place r) l)) with (eval_list (eval (fn k) st) (map (in_place r) l)).
      rewrite Q2. eexists. reflexivity.
  Qed.
End Calls.

(** ** Definitions *)
Scheme names_rec := Minimality for names_written Sort Prop with more_rec := Minimality for more_written Sort Prop.
Lemma declared_sound : forall fuel acc ts ps rest, declared fuel acc ts = Some (ps, rest) ->
  exists qs w, ps = rev acc ++ qs /\ ts = w ++ TRParen :: rest /\ match acc with [] => names_written qs w | _ => more_written qs w end.
Proof.
  induction fuel as [|fuel IH]; intros acc ts ps rest H; [discriminate|]. cbn [declared] in H.
  assert (G : forall pre ts1, ts = pre ++ ts1 -> (pre = [] \/ (acc <> [] /\ pre = [TComma])) ->
    match ts1 with TIdent p :: ts => declared fuel (p :: acc) ts | _ => None end = Some (ps, rest) ->
    exists qs w, ps = rev acc ++ qs /\ ts = w ++ TRParen :: rest /\ match acc with [] => names_written qs w | _ => more_written qs w end).
  { intros pre ts1 -> Pre H1. destruct ts1 as [|[] ts1]; try discriminate. apply IH in H1. destruct H1 as (qs & w & -> & -> & M). exists (n :: qs), (pre ++ TIdent n :: w).
    split; [cbn [rev]; rewrite <- app_assoc; reflexivity|]. split; [rewrite <- app_assoc; reflexivity|].
    destruct acc as [|a acc]; destruct Pre as [->|[Na ->]]; try congruence; cbn [app]; constructor; exact M. }
  destruct ts as [|t ts]; [destruct acc; discriminate|].
  destruct t; try (destruct acc; discriminate).
  - apply (G [] (TIdent n :: ts) eq_refl (or_introl eq_refl)). destruct acc; exact H.
  - injection H as <- <-. exists [], []. split; [symmetry; apply app_nil_r|]. split; [reflexivity|]. destruct acc; constructor.
  - destruct acc as [|a acc]; [discriminate|]. apply (G [TComma] ts eq_refl); [right; split; [discriminate|reflexivity]|exact H].
Qed.
Lemma declared_more : forall qs w, more_written qs w -> forall fuel a acc rest, (List.length w < fuel)%nat ->
  declared fuel (a :: acc) (w ++ TRParen :: rest) = Some (rev (a :: acc) ++ qs, rest).
Proof.
  induction 1 as [|p ps ts _ IH|p ps ts _ IH]; intros fuel a acc rest Lf; (destruct fuel as [|fuel]; [cbn in Lf; lia|]); cbn [app declared].
  - rewrite app_nil_r. reflexivity.
  - rewrite IH by (cbn [List.length] in Lf; lia). cbn [rev]. rewrite <- !app_assoc. reflexivity.
  - rewrite IH by (cbn [List.length] in Lf; lia). cbn [rev]. rewrite <- !app_assoc. reflexivity.
Qed.
Lemma declared_complete qs w rest : names_written qs w -> declared (S (List.length (w ++ TRParen :: rest))) [] (w ++ TRParen :: rest) = Some (qs, rest).
Proof.
  intros N. destruct N as [|p ps ts M]; [reflexivity|]. assert (Lm : (List.length ts < List.length ((TIdent p :: ts) ++ TRParen :: rest))%nat) by (cbn [app List.length]; rewrite app_length; lia).
  remember (List.length ((TIdent p :: ts) ++ TRParen :: rest)) as m eqn:Em. clear Em. cbn [app declared]. rewrite (declared_more ps ts M) by exact Lm. reflexivity.
Qed.
Lemma content_spec ts c rest : content ts = (c, rest) <-> ts = c ++ rest /\ ~ In TSeparator c /\ (rest = [] \/ exists r, rest = TSeparator :: r).
Proof.
  revert c rest. induction ts as [|t ts IH]; intros c rest; split.
  - intros H. injection H as <- <-. repeat split; auto.
  - intros (E & _ & _). symmetry in E. apply app_eq_nil in E. destruct E as [-> ->]. reflexivity.
  - intros H. cbn [content] in H. assert (S : t = TSeparator \/ t <> TSeparator) by (destruct t; auto; right; discriminate).
    destruct S as [->|S]; [injection H as <- <-; repeat split; eauto|].
    assert (G : (let (c, r) := content ts in (t :: c, r)) = (c, rest)) by (destruct t; try exact H; congruence).
    destruct (content ts) as [c1 r1]. injection G as <- <-. destruct (proj1 (IH c1 r1) eq_refl) as (-> & Nc & R). repeat split; auto. intros [->|I]; [congruence|contradiction].
  - intros (E & Nc & R). destruct c as [|t' c].
    + cbn [app] in E. subst rest. destruct R as [R|[r R]]; [discriminate|]. injection R as -> ->. reflexivity.
    + injection E as -> ->. assert (S : t' <> TSeparator) by (intros ->; apply Nc; now left).
      assert (Q : content (c ++ rest) = (c, rest)) by (apply IH; repeat split; auto; intros I; apply Nc; now right).
      cbn [content]. rewrite Q. destruct t'; try reflexivity. congruence.
Qed.
Lemma define_iff find ts d rest : define false true find ts = DAdded d rest <->
  exists w, ts = TIdent (ud_name d) :: TLParen :: w ++ TRParen :: TComma :: ud_body d ++ TSeparator :: rest /\
    names_written (ud_params d) w /\ ~ In TSeparator (ud_body d) /\ find (ud_name d) = false.
Proof.
  split.
  - intros H. unfold define in H. destruct (declaration ts) as [[[n ps] r]|] eqn:D; [|discriminate]. destruct r as [|[] r]; try discriminate.
    destruct (content r) as [c r1] eqn:C. cbn [negb] in H. destruct r1 as [|[] r1]; try discriminate. destruct (find n) eqn:F; [discriminate|]. injection H as <- <-. cbn [ud_name ud_params ud_body].
    unfold declaration in D. destruct ts as [|[] ts]; try discriminate. destruct ts as [|[] ts]; try discriminate.
    destruct (declared (S (List.length ts)) [] ts) as [[ps1 r2]|] eqn:E; [|discriminate]. injection D as -> -> ->. apply declared_sound in E. destruct E as (qs & w & -> & -> & N). cbn [rev app] in *.
    apply content_spec in C. destruct C as (-> & Nc & _). exists w. auto.
  - intros (w & -> & N & Nc & F). unfold define, declaration. rewrite (declared_complete _ _ _ N).
    rewrite (proj2 (content_spec (ud_body d ++ TSeparator :: rest) (ud_body d) (TSeparator :: rest))) by (repeat split; eauto). cbn [negb]. rewrite F. destruct d; reflexivity.
Qed.
