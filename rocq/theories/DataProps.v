(** Property theorems: C26 (data directives). *)

Require Import ZArith List Bool String Ascii Lia.
Require Import Floats.SpecFloat.
From Verif Require Import Ints Res ExprModel TableModel TableSpec TableIface BytesSpec FileModel FileSpec FileProofs
  FloatModel FloatSpec DataModel DataSpec DataProofs.
Import ListNotations.
Local Open Scope Z_scope.

(** Validation of any list of values: either every argument has bytes, and the bytes of the command
    are those in order, followed by the terminator; or some argument has none and an error is
    reported.  The answer tells whether the size is another one than before. *)
Theorem C26_values : forall nan32 nan64 big sjis hs ts global h term c l,
  built sjis hs ts -> good_entries hs -> built global h term -> good_entries h ->
  d_mode c <> DInvalid -> Forall is_double l ->
  let k := kind_of (d_mode c) (match d_mode c with DSjis => hs | _ => h end) in
  let e := ending k (d_term c) (match d_mode c with DSjis => ts | _ => term end) in
  exists c' err, data_validate nan32 nan64 sjis global c l = ROk (c', negb (Nat.eqb (data_size c) (data_size c')), err) /\
    (err = false -> exists bytes, emits_all big k l bytes /\ command_bytes big c' = bytes ++ e /\ d_mode c' = d_mode c) /\
    (err = true -> forall bytes, ~ emits_all big k l bytes).
Proof. exact validate_emits. Qed.

(** The size that validation advances by is the number of bytes. *)
Theorem C26_size : forall big c, data_size c = List.length (command_bytes big c).
Proof. exact command_size. Qed.

(** The bytes of the validated command are what encoding puts into the open file, at its file
    address and nowhere else. *)
Theorem C26_output : forall writable own_big files d m h cu c,
  Forall fresh files -> file_history writable own_big files d m h ->
  where_to (header_of files) h = Some cu -> cu_real cu = true ->
  is_int64 (get_virtual m) -> is_int64 (get_virtual m + Z.of_nat (data_size c)) ->
  let bytes := command_bytes (big_endian h) c in
  let p := Z.to_nat (get_physical m) in
  let old := match f_disk m (name_of files (cu_file cu)) with Some c => c | None => [] end in
  exists m', data_encode writable own_big m c = ROk m' /\
    (let new := match f_disk m' (name_of files (cu_file cu)) with Some c => c | None => [] end in
     (forall i, (p <= i < p + data_size c)%nat -> byte_at new i = nth (i - p) bytes 0) /\
     (forall i, (i < p \/ p + data_size c <= i)%nat -> byte_at new i = byte_at old i)) /\
    (forall other, other <> name_of files (cu_file cu) -> f_disk m' other = f_disk m other) /\
    get_virtual m' = get_virtual m + Z.of_nat (data_size c).
Proof.
  intros writable own_big files d m h cu c F H Ec Er B0 B. cbv zeta.
  destruct (history_ready _ _ _ _ _ _ _ F H Ec Er) as [R Eb].
  pose proof (addresses _ _ _ _ _ _ F H) as A. rewrite Ec in A. destruct A as (_ & A2 & A3 & A4 & _).
  rewrite A3 in B0, B.
  destruct (encode_ready writable own_big _ _ _ _ _ c R B0 B) as (m' & E & W). exists m'. split; [exact E|].
  rewrite Eb in W. pose proof (command_size (big_endian h) c) as L. destruct W as [W1 W2 W3 _ _ _ _]. unfold contents in W2.
  rewrite W2, A2, L. split; [|split; [exact W3|]].
  - split; intros i Hi; [apply put_inside|apply put_outside]; exact Hi.
  - destruct W1 as [(g & G1 & _ & _ & _ & _ & G2) _]. unfold get_virtual at 1. rewrite G1, G2, A3. reflexivity.
Qed.

(** Cases. *)
Definition ex_table : table := set_termination (add_entry (add_entry new_table [0xAA] [97]) [0xBB; 0xCC] [97; 98]) [0xFF].
Definition ex_entries : entries := [([97], [0xAA]); ([97; 98], [0xBB; 0xCC])].
Lemma ex_built : built ex_table ex_entries [0xFF].
Proof. apply (b_term _ _ []). apply (b_add _ [([97], [0xAA])]). apply (b_add _ []). apply b_new. Qed.
Example C26_words : data_validate 0x7FC00000 0 new_table ex_table (set_normal 4) [VInt (-2); VStr "ab"; VFloat (S754_finite true 5 (-1))]
    = ROk (mkData DU32 false [-2; 97; 98; 0xC0200000 - 0x100000000] [], true, false) /\
  command_bytes true (mkData DU32 false [-2; 97; 98; 0xC0200000 - 0x100000000] []) = [255; 255; 255; 254; 0; 0; 0; 97; 0; 0; 0; 98; 0xC0; 0x20; 0; 0].
Proof. split; vm_compute; reflexivity. Qed.
Example C26_text : data_validate 0 0 new_table ex_table (set_mode DCustom true) [VStr "aab"; VInt 0x107]
    = ROk (mkData DCustom true [] [0xAA; 0xBB; 0xCC; 7; 0xFF], true, false) /\
  good_entries ex_entries /\ built ex_table ex_entries [0xFF].
Proof.
  split; [vm_compute; reflexivity|]. split; [|exact ex_built].
  intros k b [E|[E|[]]]; injection E as <- <-; (split; [discriminate|]); cbn; intros Q; repeat (destruct Q as [Q|Q]; [discriminate|]); exact Q.
Qed.
Example C26_error : exists c, data_validate 0 0 new_table ex_table (set_normal 1) [VStr (String (ascii_of_nat 200) EmptyString)] = ROk (c, true, true).
Proof. eexists. vm_compute. reflexivity. Qed.
Example C26_out : exists m h, file_history (fun _ => true) false [new_file 3 0 MOpen 0x8000] (disk_set (fun _ => None) 3 [1; 2; 3; 4; 5]) m h /\
  where_to (header_of [new_file 3 0 MOpen 0x8000]) h = Some (mkCursor 0 0x8000 1 true) /\
  exists m', data_encode (fun _ => true) false m (mkData DU16 false [0xABCD] []) = ROk m' /\ f_disk m' 3%nat = Some [1; 0xCD; 0xAB; 4; 5].
Proof.
  eexists. exists [(FSeek 0x8001, true); (FOpen 0 false, true)].
  split; [|split].
  - eapply fh_step; [eapply fh_step; [apply fh_nil| |]| |].
    + cbn. lia.
    + vm_compute. reflexivity.
    + exact Logic.I.
    + vm_compute. reflexivity.
  - reflexivity.
  - eexists. split; vm_compute; reflexivity.
Qed.

Print Assumptions C26_values.
Print Assumptions C26_size.
Print Assumptions C26_output.
