(** Data directives emit the bytes of their arguments. *)

Require Import ZArith List Bool String Ascii Lia ZifyBool.
Require Import Floats.SpecFloat.
From Verif Require Import Ints IntsLemmas Res ExprModel TableModel TableSpec TableIface TableProofs FloatModel FloatSpec FloatProofs
  BytesSpec BytesProofs FileModel FileSpec FileProofs DataModel DataSpec.
Import ListNotations.
Local Open Scope Z_scope.

Lemma characters_bytes s : string_bytes s = characters s.
Proof. unfold string_bytes, characters. apply map_ext. intros c. unfold nat_of_ascii. rewrite N_nat_Z. reflexivity. Qed.
Lemma characters_byte s : Forall (fun c => 0 <= c < 256) (characters s).
Proof. unfold characters. apply Forall_forall. intros z H. apply in_map_iff in H. destruct H as (c & <- & _). pose proof (nat_ascii_bounded c). lia. Qed.

Lemma nonascii_char c : 0 <= c < 256 -> (0x80 <=? u64 (s8 c)) = negb (c <? 128) /\ (c < 128 -> s64 (s8 c) = c).
Proof.
  intros H. unfold s8. rewrite (Z.mod_small c 256) by lia. cbv zeta. destruct (Z.ltb_spec c 128).
  - split; [|intros; apply s64_small; unfold is_int64, int64_min, int64_max; lia].
    unfold u64. rewrite Z.mod_small by lia. apply Z.leb_gt. lia.
  - split; [|lia]. unfold u64. replace (c - 256) with (c - 256 + 18446744073709551616 + (-1) * 18446744073709551616) by ring.
    rewrite Z_mod_plus_full, Z.mod_small by lia. apply Z.leb_le. lia.
Qed.
Lemma ascii_string s : 
  existsb (fun c => 0x80 <=? u64 (s8 c)) (string_bytes s) = false ->
  Forall (fun c => c < 128) (characters s) /\ map (fun c => s64 (s8 c)) (string_bytes s) = characters s.
Proof.
  rewrite characters_bytes. generalize (characters_byte s). induction (characters s) as [|c l IH]; intros F E; [split; [constructor|reflexivity]|].
  inversion F as [|? ? F1 F2]; subst. cbn [existsb map] in *. apply orb_false_iff in E. destruct E as [E1 E2].
  destruct (nonascii_char c F1) as [N1 N2]. rewrite N1 in E1. destruct (IH F2 E2) as [I1 I2].
  assert (c < 128) by lia. split; [constructor; assumption|]. rewrite I2, (N2 H). reflexivity.
Qed.
Lemma nonascii_string s : existsb (fun c => 0x80 <=? u64 (s8 c)) (string_bytes s) = true -> ~ Forall (fun c => c < 128) (characters s).
Proof.
  rewrite characters_bytes. intros E F. apply existsb_exists in E. destruct E as (c & Hin & E).
  pose proof (characters_byte s) as B. rewrite Forall_forall in B, F. destruct (nonascii_char c (B c Hin)) as [N1 _]. rewrite N1 in E. specialize (F c Hin). cbn beta in F. lia.
Qed.

Definition is_normal (m : dmode) : Prop := m = DU8 \/ m = DU16 \/ m = DU32 \/ m = DU64 \/ m = DAscii.
Definition kind_of (m : dmode) (h : entries) : kind :=
  match m with DFloat => Singles | DDouble => Doubles | DSjis | DCustom => Text h | _ => Integers (unit_size m) end.

Section Host.
  Variables nan32 nan64 : Z.
  Variable big : bool.

  Lemma normal_entry_emits m v : is_normal m -> is_double v ->
    (snd (normal_entry nan32 nan64 m v) = false ->
       emits big (Integers (unit_size m)) v (flat_map (encode_bytes big (unit_size m)) (fst (normal_entry nan32 nan64 m v)))) /\
    (snd (normal_entry nan32 nan64 m v) = true -> forall b, ~ emits big (Integers (unit_size m)) v b).
  Proof.
    intros Hm Hv. destruct v as [|i|f|s].
    - assert (E : normal_entry nan32 nan64 m VInvalid = ([], true)) by (destruct m; reflexivity). rewrite E. split; [discriminate|]. intros _ b H. inversion H.
    - assert (E : normal_entry nan32 nan64 m (VInt i) = ([i], false)) by (destruct m; reflexivity). rewrite E. split; [|discriminate].
      intros _. cbn [fst flat_map]. rewrite app_nil_r. constructor.
    - destruct Hv as [V N]. destruct Hm as [-> | [-> | [-> | [-> | ->] ] ] ]; cbn [normal_entry fst snd unit_size flat_map]; rewrite ?app_nil_r; (split; [|try discriminate]); try discriminate;
        try (intros _ b H; inversion H; fail).
      + intros _. constructor; [exact N|]. apply single_bits; [apply single_valid|apply single_number; exact N].
      + intros _. constructor; [exact N|]. apply double_bits; assumption.
    - assert (E : normal_entry nan32 nan64 m (VStr s) = (map (fun c => s64 (s8 c)) (string_bytes s), existsb (fun c => 0x80 <=? u64 (s8 c)) (string_bytes s))) by (destruct m; reflexivity).
      rewrite E. cbn [fst snd]. split.
      + intros Q. destruct (ascii_string s Q) as [F ->]. constructor. exact F.
      + intros Q b H. inversion H; subst. apply (nonascii_string s Q). assumption.
  Qed.

  Lemma int_double_valid i : valid_binary 53 1024 (int_to_double i) = true /\ int_to_double i <> S754_nan.
  Proof. split; [apply valid_normalize; unfold prec64; lia|apply normalize_number]. Qed.

  Lemma float_entry_emits m v : m = DFloat \/ m = DDouble -> is_double v ->
    (snd (float_entry nan32 nan64 m v) = false ->
       emits big (kind_of m []) v (flat_map (encode_bytes big (unit_size m)) (fst (float_entry nan32 nan64 m v)))) /\
    (snd (float_entry nan32 nan64 m v) = true -> forall b, ~ emits big (kind_of m []) v b).
  Proof.
    intros Hm Hv. destruct v as [|i|f|s]; destruct Hm as [-> | ->]; cbn [float_entry fst snd kind_of unit_size flat_map]; rewrite ?app_nil_r;
      (split; [try discriminate|try discriminate]); try (intros _ b H; inversion H; fail); intros _.
    - constructor. apply single_bits; [apply int_single_valid|apply normalize_number].
    - constructor. apply double_bits; apply int_double_valid.
    - destruct Hv as [V N]. constructor; [exact N|]. apply single_bits; [apply single_valid|apply single_number; exact N].
    - destruct Hv as [V N]. constructor; [exact N|]. apply double_bits; assumption.
  Qed.

  Lemma entries_emit (f : value -> list Z * bool) k n l :
    (forall v, is_double v -> (snd (f v) = false -> emits big k v (flat_map (encode_bytes big n) (fst (f v)))) /\ (snd (f v) = true -> forall b, ~ emits big k v b)) ->
    Forall is_double l ->
    (snd (entries_of f l) = false -> emits_all big k l (flat_map (encode_bytes big n) (fst (entries_of f l)))) /\
    (snd (entries_of f l) = true -> forall b, ~ emits_all big k l b).
  Proof.
    intros H. induction 1 as [|v l Hv F IH]; cbn [entries_of fst snd flat_map existsb]; [split; [constructor|discriminate]|].
    destruct (H v Hv) as [H1 H2]. destruct IH as [I1 I2]. cbn [entries_of fst snd] in I1, I2. split; intros E.
    - apply orb_false_iff in E. destruct E as [E1 E2]. rewrite flat_map_app. constructor; [apply H1; exact E1|apply I1; exact E2].
    - intros b Q. inversion Q; subst. apply orb_true_iff in E. destruct E as [E|E]; [apply (H2 E _ H4)|apply (I2 E _ H6)].
  Qed.

  Lemma custom_emit t h term l : built t h term -> good_entries h -> Forall is_double l ->
    exists out err, custom_entries t l = ROk (out, err) /\
    (err = false -> emits_all big (Text h) l out) /\ (err = true -> forall b, ~ emits_all big (Text h) l b).
  Proof.
    intros B G. pose proof (built_inv _ _ _ B G) as I. induction 1 as [|v l Hv F IH]; [exists [], false; split; [reflexivity|split; [constructor|discriminate]]|].
    destruct IH as (out & err & E & I1 & I2).
    assert (K : exists o e, (match v with
                     | VInt i => ROk ([u8 i], false)
                     | VStr s => encode_custom_string t (string_bytes s)
                     | VInvalid | VFloat _ => ROk ([], true)
                     end) = ROk (o, e) /\ (e = false -> emits big (Text h) v o) /\ (e = true -> forall b, ~ emits big (Text h) v b)).
    { destruct v as [|i|f|s].
      - exists [], true. split; [reflexivity|]. split; [discriminate|]. intros _ b H. inversion H.
      - exists [u8 i], false. split; [reflexivity|]. split; [|discriminate]. intros _. constructor.
      - exists [], true. split; [reflexivity|]. split; [discriminate|]. intros _ b H. inversion H.
      - rewrite characters_bytes. unfold encode_custom_string.
        destruct (encode_string_spec t h term false (characters s) I G) as [(o & Ho & Eq)|[Hn Eq]]; rewrite Eq; cbn [rbind].
        + rewrite app_nil_r. exists o, ((List.length o =? 0)%nat && (0 <? List.length (characters s))%nat). split; [reflexivity|]. split.
          * intros Q. constructor; [exact Ho|]. intros ->. cbn in Q. destruct s; [reflexivity|cbn in Q; discriminate].
          * intros Q b H. inversion H; subst. assert (b = o) by (apply (encodes_unique h G _ _ H2 _ Ho)). subst b.
            destruct o; [|cbn in Q; discriminate]. rewrite (H3 eq_refl) in Q. cbn in Q. discriminate.
        + exists [], (0 <? List.length (characters s))%nat. split; [reflexivity|]. 
          assert (s <> EmptyString) by (intros ->; apply (Hn []); constructor).
          split; [|intros _ b H'; inversion H'; subst; apply (Hn _ H2)].
          destruct s; [contradiction|discriminate]. }
    destruct K as (o & e & K1 & K2 & K3). cbn [custom_entries]. rewrite K1. cbn [rbind]. rewrite E. cbn [rbind fst snd].
    exists (o ++ out), (e || err). split; [reflexivity|]. split; intros Q.
    - apply orb_false_iff in Q. destruct Q. constructor; auto.
    - intros b H. inversion H; subst. apply orb_true_iff in Q. destruct Q as [Q|Q]; [apply (K3 Q _ H2)|apply (I2 Q _ H4)].
  Qed.
End Host.

(** The bytes a validated command stands for. *)
Definition command_bytes (big : bool) (c : datacmd) : list Z :=
  match d_mode c with
  | DSjis | DCustom => d_custom c
  | DInvalid => []
  | m => flat_map (encode_bytes big (unit_size m)) (d_normal c)
  end.
Lemma flat_map_length_const {A B} (f : A -> list B) n l : (forall x, List.length (f x) = n) -> List.length (flat_map f l) = (List.length l * n)%nat.
Proof. intros H. induction l as [|x l IH]; cbn; [reflexivity|]. rewrite app_length, H, IH. lia. Qed.
Lemma command_size big c : data_size c = List.length (command_bytes big c).
Proof.
  unfold data_size, command_bytes. destruct (d_mode c); try reflexivity;
    rewrite (flat_map_length_const _ _ _ (encode_bytes_length big _)); reflexivity.
Qed.

(** The termination: a zero unit, or what the table says. *)
Definition ending (k : kind) (terminate : bool) (term : list Z) : list Z :=
  if terminate then match k with Text _ => term | Integers n => repeat 0 n | _ => [] end else [].

Lemma encode_zero big n : encode_bytes big n 0 = repeat 0 n.
Proof.
  assert (L : forall n, le_bytes n 0 = repeat 0 n) by (clear; induction n as [|n IH]; cbn; [reflexivity|rewrite IH; reflexivity]).
  unfold encode_bytes. rewrite L. destruct big; [|reflexivity]. clear. induction n as [|n IH]; [reflexivity|]. cbn. rewrite IH. clear.
  induction n as [|n IH]; [reflexivity|]. cbn. rewrite IH. reflexivity.
Qed.

Lemma validate_emits nan32 nan64 big sjis hs ts global h term c l :
  built sjis hs ts -> good_entries hs -> built global h term -> good_entries h ->
  d_mode c <> DInvalid -> Forall is_double l ->
  let k := kind_of (d_mode c) (match d_mode c with DSjis => hs | _ => h end) in
  let e := ending k (d_term c) (match d_mode c with DSjis => ts | _ => term end) in
  exists c' err, data_validate nan32 nan64 sjis global c l = ROk (c', negb (Nat.eqb (data_size c) (data_size c')), err) /\
    (err = false -> exists bytes, emits_all big k l bytes /\ command_bytes big c' = bytes ++ e /\ d_mode c' = d_mode c) /\
    (err = true -> forall bytes, ~ emits_all big k l bytes).
Proof.
  intros Bs Gs B G Hm F. cbv zeta.
  assert (Ht : forall t h term, built t h term -> good_entries h -> encode_termination t = ROk term).
  { intros t0 h0 term0 B0 G0. apply slice_hex. apply (in_term _ _ _ (built_inv _ _ _ B0 G0)). }
  assert (Kn : is_normal (d_mode c) -> exists c' err, data_validate nan32 nan64 sjis global c l = ROk (c', negb (Nat.eqb (data_size c) (data_size c')), err) /\
    (err = false -> exists bytes, emits_all big (Integers (unit_size (d_mode c))) l bytes /\ command_bytes big c' = bytes ++ ending (Integers (unit_size (d_mode c))) (d_term c) [] /\ d_mode c' = d_mode c) /\
    (err = true -> forall bytes, ~ emits_all big (Integers (unit_size (d_mode c))) l bytes)).
  { intros N. destruct (entries_emit big (normal_entry nan32 nan64 (d_mode c)) (Integers (unit_size (d_mode c))) (unit_size (d_mode c)) l (fun v Hv => normal_entry_emits nan32 nan64 big (d_mode c) v N Hv) F) as [E1 E2].
    exists (mkData (d_mode c) (d_term c) (fst (entries_of (normal_entry nan32 nan64 (d_mode c)) l) ++ (if d_term c then [0] else [])) (d_custom c)), (snd (entries_of (normal_entry nan32 nan64 (d_mode c)) l)).
    split; [unfold data_validate; destruct N as [-> | [-> | [-> | [-> | ->] ] ] ]; reflexivity|]. split; [|exact E2].
    intros Q. eexists. split; [apply E1; exact Q|]. split; [|reflexivity].
    assert (Cb : forall x y, command_bytes big (mkData (d_mode c) (d_term c) x y) = flat_map (encode_bytes big (unit_size (d_mode c))) x).
    { intros x y. unfold command_bytes. cbn [d_mode d_normal]. destruct N as [-> | [-> | [-> | [-> | ->] ] ] ]; reflexivity. }
    rewrite Cb, flat_map_app. f_equal. unfold ending. destruct (d_term c); [|reflexivity]. cbn [flat_map]. rewrite app_nil_r. apply encode_zero. }
  assert (Kf : d_mode c = DFloat \/ d_mode c = DDouble -> exists c' err, data_validate nan32 nan64 sjis global c l = ROk (c', negb (Nat.eqb (data_size c) (data_size c')), err) /\
    (err = false -> exists bytes, emits_all big (kind_of (d_mode c) []) l bytes /\ command_bytes big c' = bytes ++ [] /\ d_mode c' = d_mode c) /\
    (err = true -> forall bytes, ~ emits_all big (kind_of (d_mode c) []) l bytes)).
  { intros N. destruct (entries_emit big (float_entry nan32 nan64 (d_mode c)) (kind_of (d_mode c) []) (unit_size (d_mode c)) l (fun v Hv => float_entry_emits nan32 nan64 big (d_mode c) v N Hv) F) as [E1 E2].
    exists (mkData (d_mode c) (d_term c) (fst (entries_of (float_entry nan32 nan64 (d_mode c)) l)) (d_custom c)), (snd (entries_of (float_entry nan32 nan64 (d_mode c)) l)).
    split; [unfold data_validate; destruct N as [-> | ->]; reflexivity|]. split; [|exact E2].
    intros Q. eexists. split; [apply E1; exact Q|]. rewrite app_nil_r. split; [|reflexivity]. unfold command_bytes. cbn [d_mode d_normal]. destruct N as [-> | ->]; reflexivity. }
  assert (Kc : forall t h0 term0, built t h0 term0 -> good_entries h0 -> exists out err, encode_custom t (d_term c) l = ROk (out, err) /\
    (err = false -> exists bytes, emits_all big (Text h0) l bytes /\ out = bytes ++ ending (Text h0) (d_term c) term0) /\
    (err = true -> forall bytes, ~ emits_all big (Text h0) l bytes)).
  { intros t h0 term0 B0 G0. destruct (custom_emit big t h0 term0 l B0 G0 F) as (out & err & E & E1 & E2).
    unfold encode_custom. rewrite E. cbn [rbind fst snd]. unfold ending. destruct (d_term c).
    - rewrite (Ht _ _ _ B0 G0). cbn [rbind]. eexists _, _. split; [reflexivity|]. split; [|exact E2]. intros Q. eexists. split; [apply E1; exact Q|reflexivity].
    - eexists _, _. split; [reflexivity|]. split; [|exact E2]. intros Q. eexists. split; [apply E1; exact Q|]. rewrite app_nil_r. reflexivity. }
  destruct (d_mode c) eqn:M; try contradiction; cbn [kind_of].
  - destruct (Kn ltac:(unfold is_normal; auto)) as (c' & err & K). exists c', err. exact K.
  - destruct (Kn ltac:(unfold is_normal; auto)) as (c' & err & K). exists c', err. exact K.
  - destruct (Kn ltac:(unfold is_normal; auto)) as (c' & err & K). exists c', err. exact K.
  - destruct (Kn ltac:(unfold is_normal; auto)) as (c' & err & K). exists c', err. exact K.
  - destruct (Kn ltac:(unfold is_normal; tauto)) as (c' & err & K). exists c', err. exact K.
  - destruct (Kf ltac:(auto)) as (c' & err & K). exists c', err. unfold ending. destruct (d_term c); exact K.
  - destruct (Kf ltac:(auto)) as (c' & err & K). exists c', err. unfold ending. destruct (d_term c); exact K.
  - destruct (Kc sjis hs ts Bs Gs) as (out & err & E & E1 & E2). unfold data_validate. rewrite M, E. cbn [rbind fst snd].
    eexists _, err. split; [reflexivity|]. split; [|exact E2]. intros Q. destruct (E1 Q) as (bytes & H1 & ->). exists bytes. split; [exact H1|]. split; reflexivity.
  - destruct (Kc global h term B G) as (out & err & E & E1 & E2). unfold data_validate. rewrite M, E. cbn [rbind fst snd].
    eexists _, err. split; [reflexivity|]. split; [|exact E2]. intros Q. destruct (E1 Q) as (bytes & H1 & ->). exists bytes. split; [exact H1|]. split; reflexivity.
Qed.

(** ** Output *)

Lemma unit_step writable own_big m n x : (n = 1 \/ n = 2 \/ n = 4 \/ n = 8)%nat -> file_step writable own_big m (FWriteUnit n x) = one_unit own_big m n x.
Proof. intros [-> | [-> | [-> | ->] ] ]; reflexivity. Qed.
Lemma units_ready writable own_big n : (n = 1 \/ n = 2 \/ n = 4 \/ n = 8)%nat -> forall l m i name p v,
  ready m i name p v -> is_int64 v -> is_int64 (v + Z.of_nat (List.length l * n)) ->
  exists m', write_units writable own_big n m l = ROk m' /\ wrote m m' i name p v (flat_map (encode_bytes (f_big m) n) l).
Proof.
  intros Hn. induction l as [|x l IH]; intros m i name p v R B0 B; [exists m; split; [reflexivity|apply wrote_nil; exact R]|].
  cbn [write_units flat_map List.length] in *. rewrite (unit_step _ _ _ _ _ Hn).
  destruct (unit_ready own_big m i name p v n x R Hn) as (m1 & -> & W1); [unfold is_int64, int64_min, int64_max in *; nia|].
  cbn [rbind fst]. pose proof (wr_ready _ _ _ _ _ _ _ W1) as R1. rewrite encode_bytes_length in R1.
  destruct (IH m1 i name _ _ R1) as (m' & -> & W'); [unfold is_int64, int64_min, int64_max in *; nia|unfold is_int64, int64_min, int64_max in *; nia|].
  exists m'. split; [reflexivity|]. rewrite (wr_big _ _ _ _ _ _ _ W1) in W'.
  apply (wrote_app _ m1); [apply (re_pos _ _ _ _ _ R)|exact W1|]. rewrite encode_bytes_length. exact W'.
Qed.
Lemma encode_ready writable own_big m i name p v c : ready m i name p v -> is_int64 v -> is_int64 (v + Z.of_nat (data_size c)) ->
  exists m', data_encode writable own_big m c = ROk m' /\ wrote m m' i name p v (command_bytes (f_big m) c).
Proof.
  intros R B0 B. unfold data_encode, command_bytes, data_size in *. destruct (d_mode c); cbn [unit_size] in *;
    try (apply units_ready; [auto|assumption|assumption|assumption]).
  - exists m. split; [reflexivity|]. apply wrote_nil. exact R.
  - destruct (write_ready m i name p v (d_custom c) R B) as (m' & E & W). cbn [file_step]. rewrite E. cbn [rbind fst]. exists m'. auto.
  - destruct (write_ready m i name p v (d_custom c) R B) as (m' & E & W). cbn [file_step]. rewrite E. cbn [rbind fst]. exists m'. auto.
Qed.
