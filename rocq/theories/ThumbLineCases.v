(** Register lists of Thumb lines with unsigned characters, and concrete lines. *)

Require Import ZArith Lia Bool List String Ascii.
Require Import ZifyBool.
Require Import Verif.Ints Verif.Res Verif.ExprModel Verif.ParseModel Verif.LexModel Verif.ArmModel Verif.ThumbModel Verif.ThumbSpec Verif.ArmLineModel Verif.ArmLineSpec
  Verif.ArmOperandProofs Verif.ThumbLineModel Verif.ThumbLineSpec Verif.ThumbLineProofs Verif.ThumbLineEnd.
Import ListNotations.
Local Open Scope Z_scope.

(** * Register lists *)

Fixpoint list_chars (m : string) : option (ascii * ascii) :=
  match m with
  | EmptyString => None
  | String c r =>
      if Ascii.eqb c "r" || Ascii.eqb c "I" || Ascii.eqb c "i" then match r with String _ r' => list_chars r' | EmptyString => None end
      else if Ascii.eqb c "R" then
        match r with
        | String a (String b r') => match list_chars r' with Some x => Some x | None => Some (a, b) end
        | _ => None
        end
      else list_chars r
  end%char.
Lemma lays_lists isfun file section m ts ps r : tlays isfun file section false m ts ps r ->
  match written_list ps with
  | Some x => exists a b, list_chars m = Some (a, b) /\ may_list a b x /\ 0 <= x < 65536
  | None => list_chars m = None
  end.
Proof.
  induction 1 as [r|c k m n x ts ps r C R L H IH|c k m n x ts ps r C R H IH|a m n ts ps r R H IH
                 |a b m ts l x ts' ps r LI LM A H IH|c a m ts e ts' ps r C N H IH
                 |c t m ts ps r S H IH|c t m ts ps r S H IH|c t m ts ps r S N H IH]; cbn [written_list].
  - reflexivity.
  - unfold low_letter in C. cbn in C. in_cases C; destruct (written_list ps); exact IH.
  - unfold any_letter in C. cbn in C. in_cases C; destruct (written_list ps); exact IH.
  - exact IH.
  - cbn [list_chars Ascii.eqb Bool.eqb orb]. destruct (written_list ps) as [y|].
    + destruct IH as (a' & b' & -> & IH). exists a', b'. split; [reflexivity|exact IH].
    + rewrite IH. exists a, b. split; [reflexivity|]. split; [destruct A as [A|A]; [discriminate|exact A]|apply LM].
  - destruct C as [<-|[<-|[]]]; destruct (written_list ps); exact IH.
  - cbn in S. in_cases S; exact IH.
  - cbn in S. in_cases S; exact IH.
  - cbn in S. in_cases S; exact IH.
Qed.
Definition list_row (o : thumb_opcode) : bool :=
  match thumb_form (t_name o) (t_mask o), list_chars (t_mask o) with
  | Some f, Some (a, b) =>
      (number_of_char a =? 255) &&
      (number_of_char b =? match f with FPush => 64 | FPop => 128 | _ => 0 end)
  | Some f, None => negb (is_list f)
  | None, _ => false
  end.
Lemma list_rows : forallb list_row ThumbOpcodes = true.
Proof. vm_compute. reflexivity. Qed.
Lemma only_bits a b x m : may_list a b x -> 0 <= x < 65536 ->
  (forall i, 0 <= i < 16 -> Z.testbit (number_of_char (if i <? 8 then a else b)) (i mod 8) = true -> Z.testbit m i = true) ->
  Z.land x (Z.lnot m) = 0.
Proof.
  intros M Hx H. apply Z.bits_inj'. intros i Hi. rewrite Z.bits_0, Z.land_spec, Z.lnot_spec by lia.
  destruct (Z.ltb_spec i 16).
  - destruct (Z.testbit x i) eqn:B; [|reflexivity]. rewrite H; [reflexivity|lia|]. apply M; [lia|exact B].
  - rewrite (bits_range x 16 i) by lia. reflexivity.
Qed.
Ltac bits16 i H :=
  assert (J : In i [0; 1; 2; 3; 4; 5; 6; 7; 8; 9; 10; 11; 12; 13; 14; 15]) by (cbn; lia);
  cbn in J; repeat (destruct J as [J|J]; [subst i; first [exfalso; lia | intros _; reflexivity | intros Q; vm_compute in Q; discriminate Q]|]); destruct J.
Lemma lists_sane isfun file section arch ts o ps r f a : tfirst isfun file section false arch ts o ps r ->
  thumb_form (t_name o) (t_mask o) = Some f -> is_list f = true -> exists x, thumb_meaning f (toperands_of ps) 0 a = Some x.
Proof.
  intros F Ef Li. pose proof (first_in _ _ _ _ _ _ _ _ _ F) as Hin. destruct F as (_ & _ & _ & (_ & ts' & _ & L) & _).
  apply lays_lists in L. pose proof list_rows as A. rewrite forallb_forall in A. specialize (A o Hin). unfold list_row in A. rewrite Ef in A.
  unfold toperands_of. destruct (written_list ps) as [x|]; cbn [or0].
  - destruct L as (c & d & E & M & X). rewrite E in A. apply andb_true_iff in A. destruct A as (A1 & A2). apply Z.eqb_eq in A1, A2.
    destruct f; try discriminate Li; cbn [thumb_meaning ThumbSpec.tlist]; unfold when.
    + rewrite (only_bits c d x 0x40FF M X); [eexists; reflexivity|]. intros i Hi.
      destruct (Z.ltb_spec i 8); rewrite ?A1, ?A2; bits16 i H.
    + rewrite (only_bits c d x 0x80FF M X); [eexists; reflexivity|]. intros i Hi.
      destruct (Z.ltb_spec i 8); rewrite ?A1, ?A2; bits16 i H.
    + rewrite (only_bits c d x 0xFF M X); [eexists; reflexivity|]. intros i Hi.
      destruct (Z.ltb_spec i 8); rewrite ?A1, ?A2; bits16 i H.
    + rewrite (only_bits c d x 0xFF M X); [eexists; reflexivity|]. intros i Hi.
      destruct (Z.ltb_spec i 8); rewrite ?A1, ?A2; bits16 i H.
  - rewrite L in A. rewrite Li in A. discriminate.
Qed.

(** * Concrete lines *)

(** Numbers only; no expression functions. *)
Definition tev (e : expr) : value :=
  match e with EInt z => VInt z | EUn UNeg (EInt z) => VInt (- z) | _ => VInvalid end.
Definition nofun (n : string) : bool := false.
Definition tline (s : string) : list token := match tokenize (fun _ => None) s with ROk ts => ts | _ => [] end.
(** Variables with arbitrary first values. *)
Definition junk : tvars := mkTVars 99 98 97 96 None 95 0x7FFFFFFF.
(** The line at address 0x1000, with a literal pool at 0x1010; characters are signed. *)
Definition tasm (arch : arm_arch) (s : string) : res (list Z) := thumb_line nofun 0 0 true arch 0 tev junk (tline s) 0x1000 0x1010.
Definition tread (s : string) (o : thumb_opcode) (ps : list tpiece) : Prop := tfirst nofun 0 0 true AARCH_NDS (tline s) o ps [].
Definition trow (s : string) : thumb_opcode :=
  match parseThumbOpcode nofun 0 0 true AARCH_NDS junk (tline s) with Some (o, _, _) => o | _ => mkThumbOp "" "" 0 0 0 0 end.
Definition tpieces (s : string) : list tpiece :=
  match pieces nofun 0 0 false (t_mask (trow s)) (tl (tline s)) with Some (ps, _) => ps | None => [] end.
Lemma tread_of s v r : parseThumbOpcode nofun 0 0 true AARCH_NDS junk (tline s) = Some (trow s, v, r) -> r = [] -> tread s (trow s) (tpieces s).
Proof.
  intros H ->. pose proof (opcode_reads nofun 0 0 true AARCH_NDS junk (tline s)) as P. rewrite H in P. destruct P as (ps & F).
  assert (E : tpieces s = ps); [|rewrite E; exact F].
  destruct F as (_ & _ & _ & (_ & ts' & T & L) & _). apply lays_pieces in L. unfold tpieces. rewrite T. cbn [tl]. rewrite L. reflexivity.
Qed.
Ltac tread_ex := eapply tread_of; [vm_compute; reflexivity|reflexivity].
