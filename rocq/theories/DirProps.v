(** Property theorems: C99 (the names of the data directives), C100 (the lines of the directives). *)

Require Import ZArith String Ascii List Bool Lia Permutation.
Require Import Floats.SpecFloat.
From Verif Require Import Ints Res ExprModel LexModel SymModel TableModel TableSpec TableIface BytesSpec FloatModel FloatSpec
  DataModel DataSpec DataProofs DirModel DirSpec DirProofs.
Import ListNotations.
Local Open Scope string_scope.
Local Open Scope list_scope.
Local Open Scope Z_scope.

(** ** C99 *)
(** A name stands for one row of the table in every mode. *)
Theorem C99_once : forall nocash memory e f, In e directives -> In f directives -> d_name e = d_name f ->
  applies nocash memory e = true -> applies nocash memory f = true -> e = f.
Proof. exact table_once. Qed.
(** .dw has two rows; each mode has one of them. *)
Example C99_once_ex : lookup directives false false ".dw" = Some (mkDir ".dw" HData 0x2000B) /\
  lookup directives true false ".dw" = Some (mkDir ".dw" HData 0x10002) /\ lookup directives true false ".dh" = None.
Proof. vm_compute. repeat split; reflexivity. Qed.

(** So the order of the rows, which the hash table does not fix, has no effect. *)
Theorem C99_order : forall t text_of c nocash memory name l, Permutation t directives ->
  parseDirective text_of t c nocash memory name l = parseDirective text_of directives c nocash memory name l.
Proof. intros t text_of c nocash memory name l P. unfold parseDirective. rewrite (lookup_order t nocash memory name P). reflexivity. Qed.
Example C99_order_ex : Permutation (rev directives) directives /\ rev directives <> directives.
Proof. split; [apply Permutation_sym, Permutation_rev|]. intros E. apply (f_equal (fun l => match l with e :: _ => d_name e | [] => "" end)) in E. vm_compute in E. discriminate E. Qed.

(** A line is read as data exactly if the manual has the name among the data directives of this
    architecture and mode and the line has at least one parameter; the values are written in the way
    the manual gives. *)
Theorem C99_data : forall text_of c nocash memory name l m t r, ~ other_directive c name ->
  (parse_line text_of c nocash memory name l = Gives (DData m t r) <->
   l_closed l = true /\ r = l_args l /\ l_args l <> [] /\ Forall readable (l_args l) /\ data_directive c nocash name m t).
Proof. exact data_iff. Qed.

(** The sizes: integers written by a directive take the number of bytes of the manual. *)
Theorem C99_bytes : forall text_of c nocash memory name n args nan32 nan64 big sjis hs ts global h term values,
  ~ other_directive c name -> unit_bytes c nocash name n -> args <> [] -> Forall readable args ->
  built sjis hs ts -> good_entries hs -> built global h term -> good_entries h -> Forall is_double values ->
  exists m, parse_line text_of c nocash memory name (mkLine args true) = Gives (DData m false args) /\
  exists c' err, data_validate nan32 nan64 sjis global (mkData m false [] []) values = ROk (c', negb (Nat.eqb 0 (data_size c')), err) /\
    (err = false -> emits_all big (Integers n) values (command_bytes big c')) /\
    (err = true -> forall bytes, ~ emits_all big (Integers n) values bytes).
Proof.
  intros text_of c nocash memory name n args nan32 nan64 big sjis hs ts global h term values N U NE R Bs Gs Bg Gg V.
  destruct (ints_total _ _ _ _ U) as (m & K). exists m. split.
  { apply data_iff; [exact N|]. repeat split; try assumption. exact (dd_ints _ _ _ _ _ U K). }
  assert (I : m <> DInvalid) by (destruct K; discriminate).
  destruct (validate_emits nan32 nan64 big sjis hs ts global h term (mkData m false [] []) values Bs Gs Bg Gg I V) as (c' & err & E & Y & Z).
  assert (Z0 : data_size (mkData m false [] []) = 0%nat) by (destruct K; reflexivity). rewrite Z0 in E.
  assert (Kd : forall x, kind_of m x = Integers n) by (intros x; destruct K; reflexivity). cbn [d_mode d_term] in Y, Z. rewrite Kd in Y, Z.
  exists c', err. split; [exact E|]. split.
  - intros Er. destruct (Y Er) as (bytes & Em & Eq & _). unfold ending in Eq. rewrite app_nil_r in Eq. rewrite Eq. exact Em.
  - exact Z.
Qed.
(** Tables and values as the theorem asks for: the empty table, made of no entries. *)
Example C99_tables_ex : built new_table [] [] /\ good_entries [] /\ Forall is_double [VInt 1; VStr "a"].
Proof. split; [apply b_new|]. split; [intros k b []|]. repeat constructor. Qed.
(** .word 1,2 is two units of 4 bytes for ARM and of 2 for SuperH; .dw is 2 bytes in No$gba mode; .dh is then unknown. *)
Example C99_bytes_ex : forall text_of,
  let l := mkLine [PExpr (VInt 1); PExpr (VInt 2)] true in
  parse_line text_of CArm false false ".word" l = Gives (DData DU32 false (l_args l)) /\
  parse_line text_of CSuperH false false ".word" l = Gives (DData DU16 false (l_args l)) /\
  parse_line text_of CSuperH false false ".dcq" l = Gives (DData DU32 false (l_args l)) /\
  parse_line text_of CArm true false ".dw" l = Gives (DData DU16 false (l_args l)) /\
  parse_line text_of CArm true false ".dh" l = Unknown /\
  unit_bytes CSuperH false ".hword" 1 /\ unit_bytes CArm false ".hword" 2 /\ ~ other_directive CArm ".word".
Proof.
  intros text_of l. repeat split; try reflexivity.
  - apply u_half; [left; cbn; tauto|reflexivity].
  - apply u_half; [left; cbn; tauto|reflexivity].
  - intros I. cbn in I. repeat (destruct I as [I|I]; [discriminate I|]). destruct I.
Qed.

(** ** C100 *)
(** A line is a command exactly if it has one of the forms of the manual and ends there; the command
    has the parameters of the form.  Missing: lines that name an encoding outside the list. *)
Theorem C100_line_partial : forall text_of c nocash memory name l cmd, ~ other_directive c name ->
  good_encoding text_of name (l_args l) ->
  (parse_line text_of c nocash memory name l = Gives cmd <-> l_closed l = true /\ says text_of c nocash memory name (l_args l) cmd).
Proof. exact line_iff. Qed.
Example C100_line_ex : forall text_of,
  parse_line text_of CInvalid false false ".open" (mkLine [PString "a"; PString "b"; PExpr (VInt 0x8000000)] true) = Gives (DOpen "a" (Some "b") 0x8000000) /\
  parse_line text_of CMips false false ".align" (mkLine [] true) = Gives (DAlignFill AVirtual None None) /\
  parse_line text_of CMips false false ".nocash" (mkLine [PString "On"] true) = Gives (DSwitch SNocash true) /\
  parse_line text_of CArm false false ".include" (mkLine [PString "f"; PString "UTF-16"] true) = Gives (DInclude "f" EncUtf16Le) /\
  good_encoding text_of ".include" [PString "f"; PString "UTF-16"].
Proof.
  intros text_of. repeat split; try reflexivity. intros _ a b s E Sp. assert (b = PString "UTF-16") by congruence. subst b.
  destruct Sp as [Sp|[(? & Sp & _)|(? & Sp & _)]]; try discriminate Sp. cbn in Sp. assert (s = "UTF-16") by congruence. subst s.
  exists EncUtf16Le. vm_compute. tauto.
Qed.

(** Every other line of a directive is reported. *)
Theorem C100_reported_partial : forall text_of c nocash memory name l, ~ other_directive c name ->
  good_encoding text_of name (l_args l) -> known_directive text_of c nocash memory name ->
  ~ (l_closed l = true /\ exists cmd, says text_of c nocash memory name (l_args l) cmd) ->
  exists e errs, parse_line text_of c nocash memory name l = Reported (e :: errs).
Proof. exact line_reported. Qed.
Example C100_reported_ex : forall text_of,
  parse_line text_of CMips false false ".open" (mkLine [PString "a"] true) = Reported [EFew 2] /\
  parse_line text_of CMips false false ".skip" (mkLine [PExpr (VInt 1); PExpr (VInt 2)] true) = Reported [EMany 1] /\
  parse_line text_of CMips false false ".fill" (mkLine [] true) = Reported [EParameter] /\
  parse_line text_of CMips false false ".close" (mkLine [PExpr (VInt 1)] true) = Reported [EUnterminated] /\
  parse_line text_of CMips false false ".create" (mkLine [PExpr (VInt 1); PExpr (VInt 1)] true) = Reported [EDirective].
Proof. intros text_of. repeat split; reflexivity. Qed.

(** A name without any form in this mode is no directive. *)
Theorem C100_unknown : forall text_of c nocash memory name l, ~ other_directive c name ->
  ~ known_directive text_of c nocash memory name -> parse_line text_of c nocash memory name l = Unknown.
Proof. exact line_unknown. Qed.
(** Into memory there is no .open. *)
Example C100_unknown_ex : forall text_of, ~ known_directive text_of CArm false true ".open" /\
  parse_line text_of CArm false true ".open" (mkLine [PString "a"; PExpr (VInt 0)] true) = Unknown.
Proof.
  intros text_of. split; [|reflexivity]. intros (args & cmd & S). assert (N : ~ other_directive CArm ".open").
  { intros I. cbn in I. repeat (destruct I as [I|I]; [discriminate I|]). destruct I. }
  pose proof (manual_to_parser text_of _ _ _ _ _ _ N S) as P. discriminate P.
Qed.

(** A message directive is taken without a text; assembling it then reports an error, and only then. *)
Theorem C100_message : forall text_of l a,
  (forall s, spelled text_of a s -> message_validate text_of l a = (l, Some s)) /\
  ((forall s, ~ spelled text_of a s) -> message_validate text_of l a = (LError, None)).
Proof.
  intros text_of l a. unfold message_validate. split.
  - intros s S. apply spelled_eval in S. rewrite S. reflexivity.
  - intros S. destruct (evaluateString text_of a true) as [s|] eqn:E; [|reflexivity]. apply spelled_eval in E. destruct (S s E).
Qed.
Example C100_message_ex : forall text_of,
  parse_line text_of CArm false false ".notice" (mkLine [] true) = Gives (DMessage LNotice PBad) /\
  message_validate text_of LNotice PBad = (LError, None) /\ message_validate text_of LNotice (PString "hi") = (LNotice, Some "hi").
Proof. intros text_of. repeat split; reflexivity. Qed.

(** .table "t","utf-32": taken, with the encoding guessed. *)
Theorem C100_encoding_refuted : forall text_of, let l := mkLine [PString "t"; PString "utf-32"] true in
  parse_line text_of CArm false false ".table" l = Gives (DTable "t" EncGuess) /\
  ~ other_directive CArm ".table" /\ forall cmd, ~ says text_of CArm false false ".table" (l_args l) cmd.
Proof.
  intros text_of l. split; [reflexivity|]. split.
  { intros I. cbn in I. repeat (destruct I as [I|I]; [discriminate I|]). destruct I. }
  intros cmd S. assert (N : ~ other_directive CArm ".table").
  { intros I. cbn in I. repeat (destruct I as [I|I]; [discriminate I|]). destruct I. }
  pose proof (manual_to_parser text_of _ _ _ _ _ _ N S) as P. cbn [l_args l] in P.
  change (Gives (DTable "t" EncGuess) = Gives cmd) in P. assert (cmd = DTable "t" EncGuess) by congruence. subst cmd.
  inversion S as [| | | | | | | | | | | | | | |n a f r e I Sp En| | | | | | | | | | | | | | | |].
  destruct En as [(En & _)|(b & s & En & Sp2 & Na)]; [discriminate En|]. assert (b = PString "utf-32") by congruence. subst b.
  destruct Sp2 as [E|[(? & E & _)|(? & E & _)]]; try discriminate E. cbn in E. assert (s = "utf-32") by congruence. subst s.
  apply names_encoding_of in Na as G. rewrite <- G in Na. vm_compute in Na. repeat (destruct Na as [Na|Na]; [discriminate Na|]). destruct Na.
Qed.

Print Assumptions C99_once.
Print Assumptions C99_order.
Print Assumptions C99_data.
Print Assumptions C99_bytes.
Print Assumptions C100_line_partial.
Print Assumptions C100_reported_partial.
Print Assumptions C100_unknown.
Print Assumptions C100_message.
Print Assumptions C100_encoding_refuted.
