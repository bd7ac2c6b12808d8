(** Property theorems: C27 (longest match) and C28 (loading a table replaces the previous one). *)

Require Import ZArith List Bool Lia.
From Verif Require Import Ints Res TableModel TableSpec TableIface TableProofs.
Import ListNotations.
Local Open Scope Z_scope.

(** ** C27 *)

(** A text that can be cut greedily is encoded so, followed by the terminator if it is asked for. *)
Theorem C27_longest_match : forall t h term, built t h term -> good_entries h ->
  forall text out, encodes h text out ->
  encode_string t text true = ROk (out ++ term) /\ encode_string t text false = ROk out.
Proof.
  intros t h term B G text out He. pose proof (built_inv _ _ _ B G) as I.
  split.
  - destruct (encode_string_spec t h term true text I G) as [(o & Ho & ->)|[Hn _]]; [|exfalso; apply (Hn _ He)].
    rewrite (encodes_unique h G _ _ Ho _ He). reflexivity.
  - destruct (encode_string_spec t h term false text I G) as [(o & Ho & ->)|[Hn _]]; [|exfalso; apply (Hn _ He)].
    rewrite (encodes_unique h G _ _ Ho _ He), app_nil_r. reflexivity.
Qed.

(** Any other text gives nothing at all, not even the terminator. *)
Theorem C27_no_match : forall t h term, built t h term -> good_entries h ->
  forall text w, (forall out, ~ encodes h text out) -> encode_string t text w = ROk [].
Proof.
  intros t h term B G text w Hn.
  destruct (encode_string_spec t h term w text (built_inv _ _ _ B G) G) as [(o & Ho & _)|[_ E]]; [exfalso; apply (Hn _ Ho)|exact E].
Qed.

(** In a .string the error is reported exactly if the text cannot be encoded, or has no bytes. *)
Theorem C27_error : forall t h term, built t h term -> good_entries h ->
  forall text, exists out err, encode_custom_string t text = ROk (out, err) /\
    (err = false -> encodes h text out) /\
    (err = true -> out = [] /\ forall out', encodes h text out' -> out' = [] /\ text <> []).
Proof.
  intros t h term B G text. pose proof (built_inv _ _ _ B G) as I. unfold encode_custom_string.
  destruct (encode_string_spec t h term false text I G) as [(o & Ho & ->)|[Hn ->]]; cbn [rbind].
  - rewrite app_nil_r. eexists _, _. split; [reflexivity|]. split; [auto|]. intros E.
    apply andb_true_iff in E. destruct E as [E1 E2]. apply Nat.eqb_eq in E1. apply Nat.ltb_lt in E2.
    destruct o; [|discriminate]. split; [reflexivity|]. intros out' Ho'. split; [symmetry; apply (encodes_unique h G _ _ Ho _ Ho')|].
    intros ->. cbn in E2. lia.
  - eexists _, _. split; [reflexivity|]. split.
    + intros E. destruct text as [|c text]; [constructor|cbn in E; discriminate].
    + intros _. split; [reflexivity|]. intros out' Ho'. exfalso. apply (Hn _ Ho').
Qed.

(** A table file: its lines in order give the entries and the terminator. *)
Theorem C27_load : forall xs lines, Forall2 written xs lines -> good_entries (mappings xs) ->
  forall text out, encodes (mappings xs) text out ->
  encode_string (table_command lines) text false = ROk out /\
  encode_termination (table_command lines) = ROk (terminator xs).
Proof.
  intros xs lines F G text out He. pose proof (load_spec xs lines F G) as I. split.
  - destruct (encode_string_spec _ _ _ false text I G) as [(o & Ho & E)|[Hn _]]; [|exfalso; apply (Hn _ He)].
    unfold table_command. rewrite E, (encodes_unique _ G _ _ Ho _ He), app_nil_r. reflexivity.
  - apply slice_hex. apply (in_term _ _ _ I).
Qed.

(** "a" -> 01, "ab" -> 02, "a" again -> 03: "aba" is 02 03 and "b" cannot be encoded. *)
Definition ex_table := add_entry (add_entry (add_entry (set_termination new_table [255]) [1] [97]) [2] [97; 98]) [3] [97].
Definition ex_entries : entries := [([97], [1]); ([97; 98], [2]); ([97], [3])].
Example C27_ex_built : built ex_table ex_entries [255] /\ good_entries ex_entries.
Proof.
  split.
  - unfold ex_entries. apply (b_add _ [([97], [1]); ([97; 98], [2])]). apply (b_add _ [([97], [1])]). apply (b_add _ []).
    apply (b_term _ _ []). constructor.
  - intros k b [H|[H|[H|[]]]]; injection H as <- <-; cbn; split; try discriminate; intuition discriminate.
Qed.
Example C27_ex_encodes : encodes ex_entries [97; 98; 97] [2; 3].
Proof.
  apply (enc_entry ex_entries [97; 98] [2] [97] [3]).
  - exists [([97], [1])], [([97], [3])]. split; [reflexivity|]. cbn. intuition discriminate.
  - split; [cbn; auto|split; [exists [97]; reflexivity|]]. intros k [<-|[<-|[<-|[]]]] _; cbn; lia.
  - apply (enc_entry ex_entries [97] [3] [] []).
    + exists [([97], [1]); ([97; 98], [2])], []. split; [reflexivity|intros []].
    + split; [cbn; auto|split; [exists []; reflexivity|]].
      intros k [<-|[<-|[<-|[]]]] [r E]; cbn; try lia. cbn in E. discriminate.
    + constructor.
Qed.
Example C27_ex_fails : forall out, ~ encodes ex_entries [97; 98; 98] out.
Proof.
  intros out H. inversion H as [|k b rest o HL Hlong He Ek].
  assert (K : k = [97; 98] /\ rest = [98]).
  { destruct Hlong as (A & _ & C). rewrite Ek in C. specialize (C [97; 98] (or_intror (or_introl eq_refl)) (ex_intro _ [98] eq_refl)).
    cbn in A. destruct A as [<-|[<-|[<-|[]]]]; try (cbn in C; lia). cbn [app] in Ek. injection Ek as ->. auto. }
  destruct K as [-> ->]. inversion He as [|k b1 rest o1 HL2 Hlong2 He2 Ek2].
  destruct Hlong2 as (A & _ & _). cbn in A. destruct A as [<-|[<-|[<-|[]]]]; discriminate.
Qed.
(** The lines "*x", "0A=a", "/fF" *)
Example C27_ex_load : Forall2 written [Comment [120]; Mapping [97] [10]; Terminator [255]] [[42; 120]; [48; 65; 61; 97]; [47; 102; 70]] /\
  good_entries (mappings [Comment [120]; Mapping [97] [10]; Terminator [255]]) /\
  encode_string (table_command [[42; 120]; [48; 65; 61; 97]; [47; 102; 70]]) [97; 97] true = ROk [10; 10; 255].
Proof.
  split; [|split; [|reflexivity]].
  - constructor; [constructor|]. constructor; [|constructor; [|constructor]].
    + apply (w_map [97] [10] [48; 65]); [|cbn; lia|discriminate].
      constructor; [lia|left; cbn; lia|right; cbn; lia|constructor].
    + apply (w_term [255] [102; 70]); [|cbn; lia]. constructor; [lia|right; cbn; lia|right; cbn; lia|constructor].
  - intros k b [H|[]]; injection H as <- <-. split; [discriminate|]. cbn. intuition discriminate.
Qed.

(** ** C28 *)

(** After any directives, encoding is by the table of the last one alone. *)
Theorem C28_last_table : forall before xs lines, Forall2 written xs lines -> good_entries (mappings xs) ->
  forall text,
  (forall out, encodes (mappings xs) text out ->
     encode_string (after_directives (before ++ [lines])) text false = ROk out) /\
  ((forall out, ~ encodes (mappings xs) text out) ->
     encode_string (after_directives (before ++ [lines])) text false = ROk []) /\
  encode_termination (after_directives (before ++ [lines])) = ROk (terminator xs).
Proof.
  intros before xs lines F G text. unfold after_directives. rewrite fold_left_app. cbn [fold_left]. unfold validate_table, table_command.
  pose proof (load_spec xs lines F G) as I. split; [|split].
  - intros out He. destruct (encode_string_spec _ _ _ false text I G) as [(o & Ho & E)|[Hn _]]; [|exfalso; apply (Hn _ He)].
    rewrite E, (encodes_unique _ G _ _ Ho _ He), app_nil_r. reflexivity.
  - intros Hn. destruct (encode_string_spec _ _ _ false text I G) as [(o & Ho & _)|[_ E]]; [exfalso; apply (Hn _ Ho)|exact E].
  - apply slice_hex. apply (in_term _ _ _ I).
Qed.

(** The table object itself keeps old texts when it is loaded again: the text of an old entry then
    gives the bytes of a new one. *)
Theorem C28_reload_refuted :
  let first := [[48; 49; 61; 97]] (* 01=a *) in
  let second := [[48; 50; 61; 98]] (* 02=b *) in
  encode_string (load new_table second) [97] false = ROk [] /\
  encode_string (load (load new_table first) second) [97] false = ROk [2].
Proof. split; reflexivity. Qed.

(** clear(), called before a run, leaves texts without entries: using one is undefined. *)
Theorem C28_clear_refuted :
  encode_string new_table [97] false = ROk [] /\
  encode_string (clear (load new_table [[48; 49; 61; 97]])) [97] false = RUb.
Proof. split; reflexivity. Qed.

Print Assumptions C27_longest_match.
Print Assumptions C27_no_match.
Print Assumptions C27_error.
Print Assumptions C27_load.
Print Assumptions C28_last_table.
Print Assumptions C28_reload_refuted.
Print Assumptions C28_clear_refuted.
