(** Reading object files gives back what was written. *)

Require Import ZArith Lia Bool List.
Require Import ZifyBool.
Require Import Verif.Ints Verif.IntsLemmas Verif.Res Verif.BytesSpec Verif.PsxModel Verif.PsxSpec.
Import ListNotations.
Local Open Scope Z_scope.

(** ** Reading behind a prefix *)

Lemma size_app a b : size (a ++ b) = size a + size b.
Proof. unfold size. rewrite app_length. lia. Qed.
Lemma size_nonneg a : 0 <= size a.
Proof. unfold size. lia. Qed.

Lemma nth_shift (p l : list Z) k : 0 <= k -> nth (Z.to_nat (size p + k)) (p ++ l) 0 = nth (Z.to_nat k) l 0.
Proof. intros H. unfold size. rewrite app_nth2 by lia. f_equal. lia. Qed.
Lemma get_shift p l k : 0 <= k -> get (p ++ l) (size p + k) = get l k.
Proof.
  intros H. pose proof (size_nonneg p). unfold get. replace (size p + k <? 0) with false by lia. replace (k <? 0) with false by lia.
  rewrite nth_error_app2 by (unfold size; lia). replace (Z.to_nat (size p + k) - length p)%nat with (Z.to_nat k) by (unfold size; lia). reflexivity.
Qed.
Lemma get16_shift p l k : 0 <= k -> get16 (p ++ l) (size p + k) = get16 l k.
Proof.
  intros H. unfold get16. rewrite size_app. replace (size p + k + 1 >=? size p + size l) with (k + 1 >=? size l) by lia.
  rewrite <- (Z.add_assoc (size p)). rewrite !nth_shift by lia. reflexivity.
Qed.
Lemma get32_shift p l k : 0 <= k -> get32 (p ++ l) (size p + k) = get32 l k.
Proof.
  intros H. unfold get32. rewrite size_app. replace (size p + k + 3 >=? size p + size l) with (k + 3 >=? size l) by lia.
  rewrite <- !(Z.add_assoc (size p)). rewrite !nth_shift by lia. reflexivity.
Qed.
Lemma mid_shift p l k n : 0 <= k -> mid (p ++ l) (size p + k) n = mid l k n.
Proof.
  intros H. unfold mid. rewrite size_app. replace (size p + k >=? size p + size l) with (k >=? size l) by lia.
  destruct (k >=? size l) eqn:E; [reflexivity |]. cbv zeta.
  replace (size p + size l - (size p + k)) with (size l - k) by lia.
  set (m := if n <? 0 then size l - k else n).
  replace (size p + size l <? size p + k + m) with (size l <? k + m) by lia.
  destruct (size l <? k + m); [reflexivity |]. do 2 f_equal.
  replace (Z.to_nat (size p + k)) with (length p + Z.to_nat k)%nat by (unfold size; lia).
  rewrite skipn_app, skipn_all2 by lia. cbn [app]. f_equal. lia.
Qed.
Lemma get_bytes_shift n p l : forall k, 0 <= k -> get_bytes n (p ++ l) (size p + k) = get_bytes n l k.
Proof.
  induction n as [| n IH]; intros k H; cbn [get_bytes]; [reflexivity |].
  rewrite get_shift by assumption. rewrite <- Z.add_assoc, IH by lia. reflexivity.
Qed.
Lemma loadString_shift p l k : 0 <= k -> loadString (p ++ l) (size p + k) = loadString l k.
Proof.
  intros H. unfold loadString. rewrite get_shift by assumption. destruct (get l k) as [b | |]; cbn [rbind]; [| reflexivity ..].
  rewrite <- Z.add_assoc, get_bytes_shift by lia. reflexivity.
Qed.

(** ** Numbers and texts *)

Lemma le2 v : le_bytes 2 v = [v mod 256; v / 256 mod 256].
Proof. reflexivity. Qed.
Lemma le4 v : le_bytes 4 v = [v mod 256; v / 256 mod 256; v / 256 / 256 mod 256; v / 256 / 256 / 256 mod 256].
Proof. reflexivity. Qed.
Lemma size_u16b v : size (u16b v) = 2.
Proof. reflexivity. Qed.
Lemma size_u32b v : size (u32b v) = 4.
Proof. reflexivity. Qed.
Lemma size_cons b (l : list Z) : size (b :: l) = 1 + size l.
Proof. unfold size. cbn [length]. lia. Qed.
Lemma read16 v l : is_u16 v -> get16 (u16b v ++ l) 0 = v.
Proof.
  intros H. unfold get16. rewrite size_app, size_u16b. pose proof (size_nonneg l).
  replace (0 + 1 >=? 2 + size l) with false by lia. unfold u16b. rewrite le2. cbn [app].
  change (nth (Z.to_nat 0) _ 0) with (v mod 256). change (nth (Z.to_nat (0 + 1)) _ 0) with (v / 256 mod 256). unfold is_u16 in H. Z.div_mod_to_equations. lia.
Qed.
Lemma read32 v l : is_int32 v -> get32 (u32b v ++ l) 0 = v.
Proof.
  intros H. unfold get32. rewrite size_app, size_u32b. pose proof (size_nonneg l).
  replace (0 + 3 >=? 4 + size l) with false by lia. unfold u32b. rewrite le4. cbn [app].
  change (nth (Z.to_nat 0) _ 0) with (v mod 256). change (nth (Z.to_nat (0 + 1)) _ 0) with (v / 256 mod 256).
  change (nth (Z.to_nat (0 + 2)) _ 0) with (v / 256 / 256 mod 256). change (nth (Z.to_nat (0 + 3)) _ 0) with (v / 256 / 256 / 256 mod 256).
  unfold is_int32 in H. rewrite <- (s32_small v) at 5 by lia. unfold s32.
  replace ((v mod 256 + v / 256 mod 256 * 256 + v / 256 / 256 mod 256 * 65536 + v / 256 / 256 / 256 mod 256 * 16777216) mod 4294967296)
    with (v mod 4294967296); [reflexivity |].
  clear. Z.div_mod_to_equations. lia.
Qed.
Lemma get_first b l : get (b :: l) 0 = ROk b.
Proof. reflexivity. Qed.

(** The same at a distance, where the list before has the size [n]. *)
Lemma read16_at n p v l : size p = n -> is_u16 v -> get16 (p ++ u16b v ++ l) n = v.
Proof. intros <- H. rewrite <- (Z.add_0_r (size p)). rewrite get16_shift by lia. apply read16, H. Qed.
Lemma read32_at n p v l : size p = n -> is_int32 v -> get32 (p ++ u32b v ++ l) n = v.
Proof. intros <- H. rewrite <- (Z.add_0_r (size p)). rewrite get32_shift by lia. apply read32, H. Qed.
Lemma get_at n p b l : size p = n -> get (p ++ b :: l) n = ROk b.
Proof. intros <-. rewrite <- (Z.add_0_r (size p)). rewrite get_shift by lia. reflexivity. Qed.
Lemma get_bytes_all s : forall l, get_bytes (length s) (s ++ l) 0 = ROk s.
Proof.
  induction s as [| b s IH]; intros l; cbn [get_bytes length]; [reflexivity |].
  cbn [app]. rewrite get_first. cbn [rbind]. change (b :: s ++ l) with ([b] ++ s ++ l). change (0 + 1) with (size [b] + 0).
  rewrite get_bytes_shift by lia. rewrite IH. reflexivity.
Qed.
Lemma text_at n p s l : size p = n -> loadString (p ++ text s ++ l) n = ROk (s, 1 + size s).
Proof.
  intros <-. rewrite <- (Z.add_0_r (size p)). rewrite loadString_shift by lia. unfold loadString, text. cbn [app]. rewrite get_first.
  cbn [rbind]. rewrite Nat2Z.id. change (Z.of_nat (length s) :: s ++ l) with ([Z.of_nat (length s)] ++ s ++ l). change (0 + 1) with (size [Z.of_nat (length s)] + 0).
  rewrite get_bytes_shift by lia. rewrite get_bytes_all. cbn [rbind]. do 2 f_equal. unfold size. lia.
Qed.
Lemma size_text s : size (text s) = 1 + size s.
Proof. unfold text. rewrite size_cons. reflexivity. Qed.
Lemma mid_at n p s l : size p = n -> mid (p ++ s ++ l) n (size s) = ROk s.
Proof.
  intros <-. rewrite <- (Z.add_0_r (size p)). rewrite mid_shift by lia. unfold mid. rewrite size_app. pose proof (size_nonneg s). pose proof (size_nonneg l).
  destruct (0 >=? size s + size l) eqn:E.
  - assert (Q : size s = 0) by lia. destruct s; [reflexivity | rewrite size_cons in Q; pose proof (size_nonneg s); lia].
  - cbv zeta. replace (size s <? 0) with false by lia. replace (size s + size l <? 0 + size s) with false by lia.
    change (Z.to_nat 0) with O. cbn [skipn]. unfold size. rewrite Nat2Z.id, firstn_app, firstn_all, Nat.sub_diag. cbn [firstn]. rewrite app_nil_r. reflexivity.
Qed.

(** ** One record *)

(** The state after a record, without bytes. *)
Definition exec (st : pstate) (r : record) : pstate :=
  let n := size (write r) in
  let segs := st_segments st in
  match r with
  | Segment id _ => move (with_segments st (segs ++ [mkPseg id [] []])) n
  | Select id => mkPst segs (st_symbols st) (find_segment segs id) (st_part st) (st_pos st + n)
  | Data l =>
    match st_active st with
    | None => st
    | Some k => mkPst (change_segment segs k (add_data l)) (st_symbols st) (st_active st)
                      (match nth_error segs k with Some s => size (sg_data s) | None => 0 end) (st_pos st + n)
    end
  | Zeroes c =>
    match st_active st with
    | None => st
    | Some k => move (with_segments st (change_segment segs k (add_data (repeat 0 (Z.to_nat c))))) n
    end
  | Reloc t o x to =>
    match st_active st with
    | None => st
    | Some k => move (with_segments st (change_segment segs k (add_rel (relocation_at (st_part st) t o x to)))) n
    end
  | _ => mkPst segs (st_symbols st ++ symbol_of r) (st_active st) (st_part st) (st_pos st + n)
  end.
Definition needs_segment (r : record) : bool := match r with Data _ | Zeroes _ | Reloc _ _ _ _ => true | _ => false end.

Lemma move_app st n : st_pos (move st n) = st_pos st + n.
Proof. reflexivity. Qed.

(** The reference of a relocation. *)
Lemma reference_end d t o v x : forall fuel p l, d = p ++ place_bytes x ++ l -> fine_place x ->
  reference (S fuel) d t o v (size p) =
  ROk (Some (match x with AtSymbol id => mkPrel t SymblId o id 0 v | AtSegment id pos => mkPrel t SegmentOffset o id pos v end,
             size p + size (place_bytes x))).
Proof.
  intros fuel p l -> F. cbn [reference]. destruct x as [id | id pos]; cbn [place_bytes fine_place] in *.
  - cbn [app]. rewrite get_at by reflexivity. cbn [rbind]. cbv zeta. change (2 =? 2) with true. cbv iota.
    change (p ++ 2 :: u16b id ++ l) with (p ++ [2] ++ u16b id ++ l). rewrite (app_assoc p).
    rewrite read16_at; [| rewrite size_app; reflexivity | exact F]. rewrite size_cons, size_u16b. do 3 f_equal. lia.
  - destruct F as (F1 & F2). cbn [app]. rewrite get_at by reflexivity. cbn [rbind]. cbv zeta.
    change (44 =? 2) with false. change (44 =? 44) with true. cbv iota.
    change (p ++ 44 :: 4 :: (u16b id ++ 0 :: u32b pos) ++ l) with (p ++ [44] ++ 4 :: (u16b id ++ 0 :: u32b pos) ++ l). rewrite (app_assoc p).
    rewrite get_at by (rewrite size_app; reflexivity). cbn [rbind]. change (4 =? 0) with false. change (4 =? 4) with true. cbv iota.
    rewrite <- (app_assoc p). cbn [app]. change (p ++ 44 :: 4 :: (u16b id ++ 0 :: u32b pos) ++ l) with (p ++ [44; 4] ++ (u16b id ++ 0 :: u32b pos) ++ l).
    rewrite (app_assoc p). rewrite <- (app_assoc (u16b id)).
    rewrite read16_at; [| rewrite size_app; unfold size; cbn [length]; lia | exact F1].
    rewrite (app_assoc _ (u16b id)). cbn [app]. rewrite get_at; [| rewrite !size_app, size_u16b; unfold size; cbn [length]; lia].
    cbn [rbind]. change (0 =? 0) with true. cbv iota.
    change (0 :: u32b pos ++ l) with ([0] ++ u32b pos ++ l). rewrite (app_assoc _ [0]).
    rewrite read32_at; [| rewrite !size_app, size_u16b; unfold size; cbn [length]; lia | exact F2].
    repeat first [rewrite size_cons | rewrite size_app]. rewrite size_u16b, size_u32b. do 3 f_equal. lia.
Qed.
Lemma reference_read t o part x to p l fuel : fine_displacement x -> fine_place to ->
  reference (S (S fuel)) (p ++ displacement_bytes x ++ place_bytes to ++ l) t (o + part) 0 (size p) =
  ROk (Some (relocation_at part t o x to, size p + size (displacement_bytes x) + size (place_bytes to))).
Proof.
  intros Fx Ft. unfold relocation_at. rewrite (Z.add_comm part o). destruct x as [| v | v]; cbn [displacement_bytes fine_displacement displacement_value] in *.
  - cbn [app]. erewrite reference_end; [| reflexivity | exact Ft]. change (size []) with 0. rewrite Z.add_0_r. destruct to; reflexivity.
  - remember (S fuel) as m eqn:Em. cbn [reference app]. rewrite get_at by reflexivity. cbn [rbind]. cbv zeta. change (44 =? 2) with false. change (44 =? 44) with true. cbv iota.
    rewrite (eq_refl : p ++ 44 :: 0 :: u32b v ++ place_bytes to ++ l = p ++ [44] ++ 0 :: u32b v ++ place_bytes to ++ l). rewrite (app_assoc p).
    rewrite get_at by (rewrite size_app; reflexivity). cbn [rbind]. change (0 =? 0) with true. cbv iota.
    rewrite <- (app_assoc p). cbn [app]. rewrite (eq_refl : p ++ 44 :: 0 :: u32b v ++ place_bytes to ++ l = p ++ [44; 0] ++ u32b v ++ place_bytes to ++ l).
    rewrite (app_assoc p). rewrite read32_at; [| rewrite size_app; unfold size; cbn [length]; lia | exact Fx].
    rewrite (app_assoc _ (u32b v)). replace (size p + 1 + 1 + 4) with (size ((p ++ [44; 0]) ++ u32b v)) by (rewrite !size_app, size_u32b; unfold size; cbn [length]; lia).
    subst m. erewrite reference_end; [| reflexivity | exact Ft]. rewrite !size_app, !size_cons, size_u32b. change (size []) with 0. destruct to; do 3 f_equal; lia.
  - destruct Fx as (Fx & Nx). remember (S fuel) as m eqn:Em. cbn [reference app]. rewrite get_at by reflexivity. cbn [rbind]. cbv zeta. change (46 =? 2) with false. change (46 =? 44) with false. change (46 =? 46) with true. cbv iota.
    rewrite (eq_refl : p ++ 46 :: 0 :: u32b v ++ place_bytes to ++ l = p ++ [46] ++ 0 :: u32b v ++ place_bytes to ++ l). rewrite (app_assoc p).
    rewrite get_at by (rewrite size_app; reflexivity). cbn [rbind]. change (0 =? 0) with true. cbv iota.
    rewrite <- (app_assoc p). cbn [app]. rewrite (eq_refl : p ++ 46 :: 0 :: u32b v ++ place_bytes to ++ l = p ++ [46; 0] ++ u32b v ++ place_bytes to ++ l).
    rewrite (app_assoc p). rewrite read32_at; [| rewrite size_app; unfold size; cbn [length]; lia | exact Fx].
    unfold neg_int. replace (v =? -2147483648) with false by lia. cbn [rbind].
    rewrite (app_assoc _ (u32b v)). replace (size p + 1 + 1 + 4) with (size ((p ++ [46; 0]) ++ u32b v)) by (rewrite !size_app, size_u32b; unfold size; cbn [length]; lia).
    subst m. erewrite reference_end; [| reflexivity | exact Ft]. rewrite !size_app, !size_cons, size_u32b. change (size []) with 0. destruct to; do 3 f_equal; lia.
Qed.

Lemma read16_in n p v l d : d = p ++ u16b v ++ l -> size p = n -> is_u16 v -> get16 d n = v.
Proof. intros -> A B. apply read16_at; assumption. Qed.
Lemma read32_in n p v l d : d = p ++ u32b v ++ l -> size p = n -> is_int32 v -> get32 d n = v.
Proof. intros -> A B. apply read32_at; assumption. Qed.
Lemma get_in n p b l d : d = p ++ b :: l -> size p = n -> get d n = ROk b.
Proof. intros -> A. apply get_at; assumption. Qed.
Lemma text_in n p s l d : d = p ++ text s ++ l -> size p = n -> loadString d n = ROk (s, 1 + size s).
Proof. intros -> A. apply text_at; assumption. Qed.

Ltac lst := repeat first [rewrite <- app_assoc | progress cbn [app]]; reflexivity.
Ltac sz := repeat first [rewrite size_app | rewrite size_cons | rewrite size_u16b | rewrite size_u32b | rewrite size_text]; change (size []) with 0; lia.
Ltac tags := repeat match goal with
  |- context [if ?a =? ?b then _ else _] =>
    let v := eval vm_compute in (a =? b) in
    match v with true => change (a =? b) with true | false => change (a =? b) with false end; cbv iota
  end.
Ltac symbols P := cbv zeta; unfold symbol; cbn [st_segments st_symbols st_active st_part st_pos];
  erewrite (text_in _ P); [| lst | sz]; cbn [rbind fst snd symbol_of]; do 2 f_equal; f_equal; sz.

Lemma segment_id id : is_u16 id -> is_int32 id.
Proof. unfold is_u16, is_int32. lia. Qed.

Lemma step_record pre r l st : st_pos st = size pre -> fine r -> (needs_segment r = true -> st_active st <> None) ->
  step (pre ++ write r ++ l) st = ROk (Some (exec st r)).
Proof.
  intros P F N. unfold step. rewrite P. cbv zeta.
  destruct r; cbn [fine needs_segment write] in *;
    try (destruct (st_active st) as [k |] eqn:A; [clear N | exfalso; apply N; reflexivity]);
    try (erewrite (get_in (size pre) pre); [| lst | reflexivity]); cbn [rbind]; cbv zeta; tags.
  - (* Segment *)
    destruct F as (F1 & F2). erewrite (get_in _ (pre ++ [16] ++ u32b id)); [| lst | sz]. cbn [rbind]. tags.
    erewrite (text_in _ (pre ++ [16] ++ u32b id ++ [8])); [| lst | sz]. cbn [rbind fst snd].
    erewrite (read32_in _ (pre ++ [16])); [| lst | sz | exact (segment_id _ F1)].
    do 2 f_equal. unfold exec, move, with_segments. cbn [st_segments st_symbols st_active st_part st_pos]. f_equal. cbn [write]. sz.
  - (* Group *)
    destruct F as (F1 & F2). assert (S3 : size header = 3) by (unfold size; lia).
    erewrite (get_in _ (pre ++ [20] ++ header)); [| unfold text; lst | sz]. cbn [rbind].
    unfold exec, move. cbn [symbol_of]. rewrite app_nil_r. do 3 f_equal. cbn [write]. fold (size name). sz.
  - (* Source *)
    destruct F as (F1 & F2). assert (S3 : size header = 2) by (unfold size; lia).
    erewrite (get_in _ (pre ++ [28] ++ header)); [| unfold text; lst | sz]. cbn [rbind].
    unfold exec, move. cbn [symbol_of]. rewrite app_nil_r. do 3 f_equal. cbn [write]. fold (size name). sz.
  - (* Select *)
    erewrite (read16_in _ (pre ++ [6])); [| lst | sz | exact F]. unfold exec. do 3 f_equal. cbn [write]. rewrite P. sz.
  - (* Data *)
    assert (Fl : is_u16 (size bytes)) by (unfold is_u16, size; lia). fold (size bytes).
    erewrite (read16_in _ (pre ++ [2])); [| lst | sz | exact Fl].
    replace (pre ++ (2 :: u16b (size bytes) ++ bytes) ++ l) with ((pre ++ [2] ++ u16b (size bytes)) ++ bytes ++ l) by lst.
    rewrite (mid_at (size pre + 3)) by sz. cbn [rbind]. unfold exec. rewrite A. do 3 f_equal. rewrite P. cbn [write]. fold (size bytes). sz.
  - (* Zeroes *)
    erewrite (read16_in _ (pre ++ [8])); [| lst | sz | exact F]. replace (n <? 0) with false by (unfold is_u16 in F; lia).
    unfold exec. rewrite A. reflexivity.
  - (* Reloc *)
    destruct F as (F1 & F2 & F3). erewrite (get_in _ (pre ++ [10])); [| lst | sz]. cbn [rbind].
    assert (Q : relocation_type (type_byte t) = Some t) by (destruct t; reflexivity). rewrite Q.
    erewrite (read16_in _ (pre ++ [10; type_byte t])); [| lst | sz | exact F1].
    replace (pre ++ (10 :: type_byte t :: u16b offset ++ displacement_bytes by_ ++ place_bytes to) ++ l)
      with ((pre ++ 10 :: type_byte t :: u16b offset) ++ displacement_bytes by_ ++ place_bytes to ++ l) by lst.
    set (p := pre ++ 10 :: type_byte t :: u16b offset). replace (size pre + 4) with (size p) by (unfold p; sz).
    assert (Lp : exists fuel, length (p ++ displacement_bytes by_ ++ place_bytes to ++ l) = S fuel).
    { unfold p. rewrite <- app_assoc. cbn [app]. rewrite app_length. cbn [length]. rewrite <- plus_n_Sm. eexists. reflexivity. }
    destruct Lp as (fuel & ->). rewrite reference_read by assumption. cbn [rbind]. unfold exec, move, with_segments. rewrite A. cbn [st_segments st_symbols st_active st_part st_pos]. rewrite P. do 3 f_equal.
    unfold p. cbn [write]. sz.
  - destruct F as (F1 & F2 & F3). erewrite (read16_in _ (pre ++ [18])); [| lst | sz | exact F1].
    erewrite (read32_in _ (pre ++ [18] ++ u16b segment)); [| lst | sz | exact F2]. unfold exec. cbn [write]. rewrite P. 
    unfold symbol. rewrite P. erewrite (text_in _ (pre ++ [18] ++ u16b segment ++ u32b offset)); [| lst | sz]. cbn [rbind fst snd symbol_of]. do 3 f_equal. sz.
  - destruct F as (F1 & F2 & F3 & F4). erewrite (read16_in _ (pre ++ [12])); [| lst | sz | exact F1].
    erewrite (read16_in _ (pre ++ [12] ++ u16b id)); [| lst | sz | exact F2].
    erewrite (read32_in _ (pre ++ [12] ++ u16b id ++ u16b segment)); [| lst | sz | exact F3]. unfold exec. cbn [write]. rewrite P.
    unfold symbol. rewrite P. erewrite (text_in _ (pre ++ [12] ++ u16b id ++ u16b segment ++ u32b offset)); [| lst | sz]. cbn [rbind fst snd symbol_of]. do 3 f_equal. sz.
  - destruct F as (F1 & F2). erewrite (read16_in _ (pre ++ [14])); [| lst | sz | exact F1]. unfold exec. cbn [write]. rewrite P.
    unfold symbol. rewrite P. erewrite (text_in _ (pre ++ [14] ++ u16b id)); [| lst | sz]. cbn [rbind fst snd symbol_of]. do 3 f_equal. sz.
  - destruct F as (F1 & F2 & F3 & F4). erewrite (read16_in _ (pre ++ [48])); [| lst | sz | exact F1].
    erewrite (read32_in _ (pre ++ [48] ++ u16b id ++ u16b segment)); [| lst | sz | exact F3]. unfold exec. cbn [write]. rewrite P.
    unfold symbol. rewrite P. erewrite (text_in _ (pre ++ [48] ++ u16b id ++ u16b segment ++ u32b room)); [| lst | sz]. cbn [rbind fst snd symbol_of]. do 3 f_equal. sz.
  - destruct F as (F1 & F2 & F3 & F4). assert (S22 : size lines = 22) by (unfold size; lia). erewrite (read16_in _ (pre ++ [74])); [| lst | sz | exact F1].
    erewrite (read32_in _ (pre ++ [74] ++ u16b segment)); [| lst | sz | exact F2]. unfold exec. cbn [write]. rewrite P.
    unfold symbol. rewrite P. erewrite (text_in _ (pre ++ [74] ++ u16b segment ++ u32b offset ++ lines)); [| lst | sz]. cbn [rbind fst snd symbol_of]. do 3 f_equal. sz.
  - assert (S10 : size rest = 10) by (unfold size; lia). unfold exec, move. cbn [symbol_of write]. rewrite app_nil_r. do 3 f_equal. sz.
  - assert (S10 : size rest = 2) by (unfold size; lia). unfold exec, move. cbn [symbol_of write]. rewrite app_nil_r. do 3 f_equal. sz.
  - assert (S10 : size rest = 2) by (unfold size; lia). unfold exec, move. cbn [symbol_of write]. rewrite app_nil_r. do 3 f_equal. sz.
  - assert (S10 : size rest = 8) by (unfold size; lia). unfold exec, move. cbn [symbol_of write]. rewrite app_nil_r. do 3 f_equal. sz.
  - unfold exec, move. cbn [symbol_of write]. rewrite app_nil_r. reflexivity.
Qed.

(** ** The segments *)

Definition ids (segs : list pseg) : list Z := map sg_id segs.
Definition sel (current : option Z) (id : Z) : bool := match current with Some i => i =? id | None => false end.

Lemma find_in segs id : In id (ids segs) -> exists n, find_segment segs id = Some n.
Proof.
  induction segs as [| s segs IH]; cbn; [intros [] |]. destruct (sg_id s =? id) eqn:E; [eauto |].
  intros [H | H]; [lia |]. destruct (IH H) as (n & ->). eexists. reflexivity.
Qed.
Lemma find_more segs more id : In id (ids segs) -> find_segment (segs ++ more) id = find_segment segs id.
Proof.
  induction segs as [| s segs IH]; cbn; [intros [] |]. destruct (sg_id s =? id) eqn:E; [reflexivity |].
  intros [H | H]; [lia |]. rewrite (IH H). reflexivity.
Qed.
Lemma find_map segs f id : (forall s, sg_id (f s) = sg_id s) -> find_segment (map f segs) id = find_segment segs id.
Proof. intros F. induction segs as [| s segs IH]; cbn; [reflexivity |]. rewrite F, IH. reflexivity. Qed.
Lemma ids_map segs f : (forall s, sg_id (f s) = sg_id s) -> ids (map f segs) = ids segs.
Proof. intros F. unfold ids. rewrite map_map. apply map_ext. exact F. Qed.
Lemma change_map segs f id : forall n, NoDup (ids segs) -> find_segment segs id = Some n ->
  change_segment segs n f = map (fun s => if sg_id s =? id then f s else s) segs /\
  exists s, nth_error segs n = Some s /\ In s segs /\ sg_id s = id.
Proof.
  induction segs as [| s segs IH]; intros n D H; cbn in H; [discriminate |]. unfold ids in D. cbn [map] in D. inversion D as [| ? ? D1 D2]; subst.
  destruct (sg_id s =? id) eqn:E.
  - inversion H; subst. cbn [change_segment map nth_error]. rewrite E. split; [f_equal | exists s; split; [| split; [left; reflexivity |]]; auto; lia].
    rewrite <- (map_id segs) at 1. apply map_ext_in. intros t I. destruct (sg_id t =? id) eqn:E2; [| reflexivity].
    exfalso. apply D1. apply in_map_iff. exists t. split; [lia | exact I].
  - destruct (find_segment segs id) as [m |] eqn:Fm; cbn in H; [| discriminate]. inversion H; subst. cbn [change_segment map nth_error]. rewrite E.
    destruct (IH m D2 eq_refl) as (-> & t & A & B & C). split; [reflexivity |]. exists t. split; [exact A |]. split; [right; exact B | exact C].
Qed.

Record inv (st : pstate) (known : list Z) (current : option Z) (piece : bool) : Prop := mkInv {
  iv_ids : ids (st_segments st) = known;
  iv_dup : NoDup known;
  iv_current : match current with None => piece = false | Some id => In id known end;
  iv_active : st_active st = match current with None => None | Some id => find_segment (st_segments st) id end
}.

(** The position of the last piece only matters for the selected segment. *)
Lemma part_free id p q : forall rs known current piece len, ordered known current piece rs -> sel current id = false \/ piece = false ->
  relocations_of len p (records_for id (sel current id) rs) = relocations_of len q (records_for id (sel current id) rs).
Proof.
  induction rs as [| r rs IH]; intros known current piece len O H; [reflexivity |].
  destruct r as [i nm | | | i | l | n | t o x to | | | | | | | | | |]; cbn [ordered records_for] in *;
    try (destruct (sel current id) eqn:S; cbn [relocations_of];
         [rewrite <- S; eapply IH; [exact O | right; destruct H; [discriminate | assumption]]
         |rewrite <- S; eapply IH; [exact O | left; exact S]]).
  - destruct O as (_ & O). destruct (sel current id) eqn:S; cbn [relocations_of].
    + rewrite <- S. eapply IH; [exact O | right; destruct H; [discriminate | assumption]].
    + rewrite <- S. eapply IH; [exact O | left; exact S].
  - destruct O as (_ & O). change (i =? id) with (sel (Some i) id). eapply IH; [exact O | right; reflexivity].
  - destruct O as (_ & O). destruct (sel current id) eqn:S; cbn [relocations_of]; [reflexivity |].
    rewrite <- S. eapply IH; [exact O | left; exact S].
  - destruct O as (_ & O). destruct (sel current id) eqn:S; cbn [relocations_of].
    + rewrite <- S. eapply IH; [exact O | right; destruct H; [discriminate | assumption]].
    + rewrite <- S. eapply IH; [exact O | left; exact S].
  - destruct O as (-> & O). destruct H as [S | H]; [| discriminate]. rewrite S. rewrite <- S. eapply IH; [exact O | left; exact S].
Qed.

(** What the records add to a segment, and the segments they declare. *)
Definition grown (current : option Z) (part : Z) (rs : list record) (s : pseg) : pseg :=
  let own := records_for (sg_id s) (sel current (sg_id s)) rs in
  mkPseg (sg_id s) (sg_data s ++ flat_map bytes_of own) (sg_rels s ++ relocations_of (size (sg_data s)) part own).
Definition fresh (current : option Z) (rs : list record) (id : Z) : pseg :=
  let own := records_for id (sel current id) rs in mkPseg id (flat_map bytes_of own) (relocations_of 0 0 own).

Lemma flat_cons {A B} (f : A -> list B) a l : flat_map f (a :: l) = f a ++ flat_map f l.
Proof. reflexivity. Qed.

Lemma same_id_data l s : sg_id (add_data l s) = sg_id s.
Proof. reflexivity. Qed.
Lemma same_id_if (c : pseg -> bool) (f : pseg -> pseg) (F : forall s, sg_id (f s) = sg_id s) s : sg_id (if c s then f s else s) = sg_id s.
Proof. destruct (c s); [apply F | reflexivity]. Qed.

Lemma fresh_ordered rs : forall known current piece, ordered known current piece rs -> forall id, In id (flat_map declared rs) -> ~ In id known.
Proof.
  induction rs as [| r rs IH]; intros known current piece O id; [intros [] |].
  destruct r; cbn [ordered flat_map declared app] in *; try (apply (IH _ _ _ O)); try (apply (IH _ _ _ (proj2 O))).
  intros [<- | I]; [exact (proj1 O) |]. intros K. apply (IH _ _ _ (proj2 O) id I). apply in_app_iff. left. exact K.
Qed.

Lemma skip_record r rs st known current piece :
  (forall known current piece st, ordered known current piece rs -> inv st known current piece ->
     st_segments (fold_left exec rs st) = map (grown current (st_part st) rs) (st_segments st) ++ map (fresh current rs) (flat_map declared rs)) ->
  declared r = [] -> bytes_of r = [] -> (forall l s, relocations_of l s (r :: nil) = []) ->
  (forall l s x, relocations_of l s (r :: x) = relocations_of l s x) ->
  (forall id b, records_for id b (r :: rs) = if b then r :: records_for id b rs else records_for id b rs) ->
  st_segments (exec st r) = st_segments st -> st_part (exec st r) = st_part st -> st_active (exec st r) = st_active st ->
  ordered known current piece rs -> inv st known current piece ->
  st_segments (fold_left exec (r :: rs) st) = map (grown current (st_part st) (r :: rs)) (st_segments st) ++ map (fresh current (r :: rs)) (flat_map declared (r :: rs)).
Proof.
  intros IH D B _ R Rf E1 E2 E3 O I. cbn [fold_left]. rewrite (IH known current piece); [| exact O | destruct I; constructor; rewrite ?E1, ?E3; assumption].
  rewrite E1, E2. cbn [flat_map]. rewrite D. cbn [app]. f_equal.
  - apply map_ext. intros s. unfold grown. cbv zeta. rewrite Rf. destruct (sel current (sg_id s)); [| reflexivity]. cbn [flat_map]. rewrite B, R. reflexivity.
  - apply map_ext. intros s. unfold fresh. cbv zeta. rewrite Rf. destruct (sel current s); [| reflexivity]. cbn [flat_map]. rewrite B, R. reflexivity.
Qed.

Lemma segments_result rs : forall known current piece st, ordered known current piece rs -> inv st known current piece -> Forall fine rs ->
  st_segments (fold_left exec rs st) = map (grown current (st_part st) rs) (st_segments st) ++ map (fresh current rs) (flat_map declared rs).
Proof.
  induction rs as [| r rs IH]; intros known current piece st O I Fr.
  { cbn. rewrite app_nil_r. rewrite <- (map_id (st_segments st)) at 1. apply map_ext. intros s. unfold grown. cbn. rewrite !app_nil_r. destruct s; reflexivity. }
  assert (Fr' : Forall fine rs) by (inversion Fr; assumption).
  assert (IH' : forall known current piece st, ordered known current piece rs -> inv st known current piece ->
     st_segments (fold_left exec rs st) = map (grown current (st_part st) rs) (st_segments st) ++ map (fresh current rs) (flat_map declared rs))
    by (intros k c pc s0 Oo Ii; apply (IH k c pc s0 Oo Ii Fr')).
  assert (Fhd : fine r) by (inversion Fr; assumption). clear IH Fr.
  destruct r as [i nm | h nm | h nm | i | l | n | t o x to | | | | | | | | | |]; cbn [ordered] in O;
    try solve [eapply (skip_record _ rs st known current piece IH'); first [reflexivity | assumption | intros; reflexivity]].
  - (* Segment *)
    destruct O as (Nk & O). cbn [fold_left]. rewrite (IH' (known ++ [i]) current piece); [| exact O |].
    + cbn [exec move with_segments st_segments st_part]. rewrite map_app, <- app_assoc. cbn [map app flat_map declared].
      assert (Sf : sel current i = false).
      { destruct current as [c |]; [cbn | reflexivity]. pose proof (iv_current _ _ _ _ I) as C. cbn in C. destruct (c =? i) eqn:E; [exfalso; apply Nk; replace i with c by lia; exact C | reflexivity]. }
      f_equal; [| f_equal].
      * apply map_ext_in. intros s Is. unfold grown. cbv zeta. cbn [records_for]. destruct (sel current (sg_id s)) eqn:S; reflexivity.
      * unfold grown, fresh. cbv zeta. cbn [sg_id sg_data sg_rels app records_for]. rewrite Sf. f_equal. change (size []) with 0. rewrite <- Sf.
        eapply part_free; [exact O | left; exact Sf].
      * apply map_ext. intros id. unfold fresh. cbv zeta. cbn [records_for]. destruct (sel current id); reflexivity.
    + destruct I as [I1 I2 I3 I4]. constructor; cbn [exec move with_segments st_segments st_active].
      * unfold ids in *. rewrite map_app. cbn. rewrite I1. reflexivity.
      * apply NoDup_rev in I2. rewrite <- (rev_involutive (known ++ [i])). apply NoDup_rev. rewrite rev_app_distr. cbn. constructor; [rewrite <- in_rev; exact Nk | exact I2].
      * destruct current; [apply in_app_iff; left |]; exact I3.
      * destruct current as [c |]; [| exact I4]. rewrite find_more; [exact I4 |]. rewrite I1. exact I3.
  - (* Select *)
    destruct O as (Ik & O). cbn [fold_left]. rewrite (IH' known (Some i) false); [| exact O |].
    + cbn [exec st_segments st_part flat_map declared app]. f_equal; apply map_ext; intros s; reflexivity.
    + destruct I as [I1 I2 I3 I4]. constructor; cbn [exec st_segments st_active]; try assumption. reflexivity.
  - (* Data *)
    destruct O as (Nc & O). destruct current as [c |]; [| congruence]. pose proof (iv_current _ _ _ _ I) as Ic. cbn in Ic.
    pose proof (iv_ids _ _ _ _ I) as Ii. pose proof (iv_dup _ _ _ _ I) as Id. pose proof (iv_active _ _ _ _ I) as Ia. cbn in Ia.
    rewrite <- Ii in Ic. destruct (find_in _ _ Ic) as (k & Fk). rewrite Fk in Ia. rewrite <- Ii in Id. destruct (change_map _ (add_data l) _ _ Id Fk) as (Ch & s0 & N0 & S0 & E0).
    cbn [fold_left]. unfold exec at 2. cbv zeta. rewrite Ia, N0, Ch. rewrite (IH' known (Some c) true); [| exact O |].
    + cbn [st_segments st_part flat_map declared app]. f_equal.
      * rewrite map_map. apply map_ext_in. intros s Is. unfold grown. cbn [records_for sel]. destruct (sg_id s =? c) eqn:E.
        -- cbn [add_data sg_id sg_data sg_rels]. replace (c =? sg_id s) with true by lia. cbn [flat_map bytes_of relocations_of].
           rewrite <- app_assoc. rewrite size_app. fold (size l).
           assert (s = s0).
           { clear - Is S0 E E0 Id. revert Is S0 Id. generalize (st_segments st). intros segs. induction segs as [| t segs IH]; cbn; [intros [] |].
             intros A B D. inversion D as [| ? ? D1 D2]; subst. destruct A as [<- | A], B as [<- | B]; [reflexivity | exfalso | exfalso | auto].
             - apply D1. apply in_map_iff. exists s0. split; [lia | exact B].
             - apply D1. apply in_map_iff. exists s. split; [lia | exact A]. }
           subst s0. reflexivity.
        -- cbn [sg_id sg_data sg_rels]. replace (c =? sg_id s) with false by lia. f_equal. f_equal.
           replace false with (sel (Some c) (sg_id s)) by (cbn; lia). eapply part_free; [exact O | left; cbn; lia].
      * apply map_ext_in. intros id J. unfold fresh. cbn [records_for sel].
        assert (Nn : c =? id = false).
        { destruct (c =? id) eqn:E; [exfalso | reflexivity]. apply (fresh_ordered _ _ _ _ O id J). rewrite <- Ii. replace id with c by lia. exact Ic. }
        rewrite Nn. reflexivity.
    + constructor; cbn [st_segments st_active].
      * rewrite ids_map; [exact Ii |]. intros s. destruct (sg_id s =? c); reflexivity.
      * rewrite <- Ii. exact Id.
      * rewrite <- Ii. exact Ic.
      * rewrite find_map; [symmetry; exact Fk |]. intros s. destruct (sg_id s =? c); reflexivity.
  - (* Zeroes *)
    destruct O as (Nc & O). destruct current as [c |]; [| congruence]. pose proof (iv_current _ _ _ _ I) as Ic. cbn in Ic.
    pose proof (iv_ids _ _ _ _ I) as Ii. pose proof (iv_dup _ _ _ _ I) as Id. pose proof (iv_active _ _ _ _ I) as Ia. cbn in Ia.
    rewrite <- Ii in Ic. destruct (find_in _ _ Ic) as (k & Fk). rewrite Fk in Ia. rewrite <- Ii in Id. destruct (change_map _ (add_data (repeat 0 (Z.to_nat n))) _ _ Id Fk) as (Ch & _).
    cbn [fold_left]. unfold exec at 2. cbv zeta. rewrite Ia, Ch. rewrite (IH' known (Some c) piece); [| exact O |].
    + cbn [move with_segments st_segments st_part flat_map declared app]. f_equal.
      * rewrite map_map. apply map_ext_in. intros s Is. unfold grown. cbn [records_for sel]. destruct (sg_id s =? c) eqn:E.
        -- cbn [add_data sg_id sg_data sg_rels]. replace (c =? sg_id s) with true by lia. cbn [flat_map bytes_of relocations_of].
           rewrite <- app_assoc. rewrite size_app. unfold size at 2. rewrite repeat_length.
           rewrite Z2Nat.id by (cbn in Fhd; unfold is_u16 in Fhd; lia). reflexivity.
        -- cbn [sg_id sg_data sg_rels]. replace (c =? sg_id s) with false by lia. reflexivity.
      * apply map_ext_in. intros id J. unfold fresh. cbn [records_for sel].
        assert (Nn : c =? id = false).
        { destruct (c =? id) eqn:E; [exfalso | reflexivity]. apply (fresh_ordered _ _ _ _ O id J). rewrite <- Ii. replace id with c by lia. exact Ic. }
        rewrite Nn. reflexivity.
    + constructor; cbn [move with_segments st_segments st_active].
      * rewrite ids_map; [exact Ii |]. intros s. destruct (sg_id s =? c); reflexivity.
      * rewrite <- Ii. exact Id.
      * rewrite <- Ii. exact Ic.
      * rewrite find_map; [rewrite Fk; exact Ia |]. intros s. destruct (sg_id s =? c); reflexivity.
  - (* Reloc *)
    destruct O as (Np & O). destruct current as [c |]; [| pose proof (iv_current _ _ _ _ I) as Ic; cbn in Ic; congruence]. pose proof (iv_current _ _ _ _ I) as Ic. cbn in Ic.
    pose proof (iv_ids _ _ _ _ I) as Ii. pose proof (iv_dup _ _ _ _ I) as Id. pose proof (iv_active _ _ _ _ I) as Ia. cbn in Ia.
    rewrite <- Ii in Ic. destruct (find_in _ _ Ic) as (k & Fk). rewrite Fk in Ia. rewrite <- Ii in Id. destruct (change_map _ (add_rel (relocation_at (st_part st) t o x to)) _ _ Id Fk) as (Ch & _).
    cbn [fold_left]. unfold exec at 2. cbv zeta. rewrite Ia, Ch. rewrite (IH' known (Some c) piece); [| exact O |].
    + cbn [move with_segments st_segments st_part flat_map declared app]. f_equal.
      * rewrite map_map. apply map_ext_in. intros s Is. unfold grown. cbn [records_for sel]. destruct (sg_id s =? c) eqn:E.
        -- cbn [add_rel sg_id sg_data sg_rels]. replace (c =? sg_id s) with true by lia. cbn [flat_map bytes_of relocations_of].
           rewrite <- app_assoc. reflexivity.
        -- cbn [sg_id sg_data sg_rels]. replace (c =? sg_id s) with false by lia. reflexivity.
      * apply map_ext_in. intros id J. unfold fresh. cbn [records_for sel].
        assert (Nn : c =? id = false).
        { destruct (c =? id) eqn:E; [exfalso | reflexivity]. apply (fresh_ordered _ _ _ _ O id J). rewrite <- Ii. replace id with c by lia. exact Ic. }
        rewrite Nn. reflexivity.
    + constructor; cbn [move with_segments st_segments st_active].
      * rewrite ids_map; [exact Ii |]. intros s. destruct (sg_id s =? c); reflexivity.
      * rewrite <- Ii. exact Id.
      * rewrite <- Ii. exact Ic.
      * rewrite find_map; [rewrite Fk; exact Ia |]. intros s. destruct (sg_id s =? c); reflexivity.
Qed.

(** ** The loop *)

Lemma active_some st known c piece : inv st known (Some c) piece -> exists k, st_active st = Some k /\ find_segment (st_segments st) c = Some k /\ NoDup (ids (st_segments st)).
Proof.
  intros [I1 I2 I3 I4]. rewrite <- I1 in I3. destruct (find_in _ _ I3) as (k & Fk). exists k. rewrite I4, I1. auto.
Qed.
Lemma inv_change st known c piece piece' f k st' : inv st known (Some c) piece -> find_segment (st_segments st) c = Some k -> (forall s, sg_id (f s) = sg_id s) ->
  st_segments st' = change_segment (st_segments st) k f -> st_active st' = st_active st -> inv st' known (Some c) piece'.
Proof.
  intros I Fk Fi E1 E2. destruct I as [I1 I2 I3 I4]. rewrite <- I1 in I2. destruct (change_map _ f _ _ I2 Fk) as (Ch & _). constructor.
  - rewrite E1, Ch, ids_map; [exact I1 |]. intros s. destruct (sg_id s =? c); auto.
  - rewrite <- I1. exact I2.
  - exact I3.
  - rewrite E1, Ch, find_map, E2; [exact I4 |]. intros s. destruct (sg_id s =? c); auto.
Qed.
Lemma inv_same st known c piece st' : inv st known c piece -> st_segments st' = st_segments st -> st_active st' = st_active st -> inv st' known c piece.
Proof. intros [I1 I2 I3 I4] E1 E2. constructor; rewrite ?E1, ?E2; assumption. Qed.

Lemma next_record r rs st known current piece : ordered known current piece (r :: rs) -> inv st known current piece ->
  (needs_segment r = true -> st_active st <> None) /\ st_pos (exec st r) = st_pos st + size (write r) /\
  exists known' current' piece', ordered known' current' piece' rs /\ inv (exec st r) known' current' piece'.
Proof.
  intros O I. destruct r as [i nm | h nm | h nm | i | l | n | t o x to | | | | | | | | | |]; cbn [ordered needs_segment] in *;
    try solve [split; [discriminate |]; split; [reflexivity |]; exists known, current, piece; split; [exact O | eapply inv_same; [exact I | reflexivity | reflexivity]]].
  - destruct O as (Nk & O). split; [discriminate |]. split; [reflexivity |]. exists (known ++ [i]), current, piece. split; [exact O |].
    destruct I as [I1 I2 I3 I4]. constructor; cbn [exec move with_segments st_segments st_active].
    + unfold ids in *. rewrite map_app. cbn. rewrite I1. reflexivity.
    + apply NoDup_rev in I2. rewrite <- (rev_involutive (known ++ [i])). apply NoDup_rev. rewrite rev_app_distr. cbn. constructor; [rewrite <- in_rev; exact Nk | exact I2].
    + destruct current; [apply in_app_iff; left |]; exact I3.
    + destruct current as [c |]; [| exact I4]. rewrite find_more; [exact I4 |]. rewrite I1. exact I3.
  - destruct O as (Ik & O). split; [discriminate |]. split; [reflexivity |]. exists known, (Some i), false. split; [exact O |].
    destruct I as [I1 I2 I3 I4]. constructor; cbn [exec st_segments st_active]; try assumption. reflexivity.
  - destruct O as (Nc & O). destruct current as [c |]; [| congruence]. destruct (active_some _ _ _ _ I) as (k & A & Fk & D).
    split; [intros _; rewrite A; discriminate |]. unfold exec. rewrite A. split; [reflexivity |]. exists known, (Some c), true. split; [exact O |].
    eapply inv_change; [exact I | exact Fk | | reflexivity | symmetry; exact A]. reflexivity.
  - destruct O as (Nc & O). destruct current as [c |]; [| congruence]. destruct (active_some _ _ _ _ I) as (k & A & Fk & D).
    split; [intros _; rewrite A; discriminate |]. unfold exec. rewrite A. split; [reflexivity |]. exists known, (Some c), piece. split; [exact O |].
    eapply inv_change; [exact I | exact Fk | | reflexivity | reflexivity]. reflexivity.
  - destruct O as (-> & O). destruct current as [c |]; [| pose proof (iv_current _ _ _ _ I); cbn in *; congruence]. destruct (active_some _ _ _ _ I) as (k & A & Fk & D).
    split; [intros _; rewrite A; discriminate |]. unfold exec. rewrite A. split; [reflexivity |]. exists known, (Some c), true. split; [exact O |].
    eapply inv_change; [exact I | exact Fk | | reflexivity | reflexivity]. reflexivity.
Qed.

Lemma write_some r : 0 < size (write r).
Proof. destruct r; cbn [write]; rewrite size_cons; match goal with |- 0 < 1 + size ?l => pose proof (size_nonneg l) end; lia. Qed.

Lemma loop_records rs : forall fuel pre st known current piece, ordered known current piece rs -> inv st known current piece -> Forall fine rs ->
  st_pos st = size pre -> (length rs <= fuel)%nat ->
  parse_loop fuel (pre ++ flat_map write rs) st =
  ROk (Some (mkPfile (st_segments (fold_left exec rs st)) (st_symbols (fold_left exec rs st)))).
Proof.
  induction rs as [| r rs IH]; intros fuel pre st known current piece O I F P Fu.
  - cbn [flat_map fold_left]. rewrite app_nil_r. destruct fuel; cbn [parse_loop]; replace (st_pos st >=? size pre) with true by lia; reflexivity.
  - destruct fuel as [| fuel]; cbn [length] in Fu; [lia |]. cbn [flat_map parse_loop]. inversion F as [| ? ? F1 F2]; subst.
    rewrite !size_app. pose proof (write_some r). pose proof (size_nonneg (flat_map write rs)).
    replace (st_pos st >=? size pre + (size (write r) + size (flat_map write rs))) with false by lia.
    destruct (next_record _ _ _ _ _ _ O I) as (N & Ps & k & c & pc & O' & I').
    rewrite (step_record pre r _ st P F1 N). cbn [rbind]. rewrite app_assoc. cbn [fold_left].
    apply (IH fuel _ _ k c pc O' I' F2); [rewrite Ps, P, size_app; reflexivity | lia].
Qed.

Lemma symbols_result rs : forall st, st_symbols (fold_left exec rs st) = st_symbols st ++ flat_map symbol_of rs.
Proof.
  induction rs as [| r rs IH]; intros st; cbn [fold_left flat_map]; [rewrite app_nil_r; reflexivity |]. rewrite IH, app_assoc. f_equal.
  destruct r; cbn [exec symbol_of]; try reflexivity; try (rewrite app_nil_r; reflexivity); destruct (st_active st); cbn; rewrite ?app_nil_r; reflexivity.
Qed.

Lemma starts_app e : forall l, starts_with (e ++ l) e = ROk true.
Proof. induction e as [| b e IH]; intros l; cbn [app starts_with]; [destruct l; reflexivity |]. rewrite Z.eqb_refl. apply IH. Qed.
Lemma count_records rs : (length rs <= length (flat_map write rs))%nat.
Proof. induction rs as [| r rs IH]; cbn [flat_map length]; [lia |]. rewrite app_length. pose proof (write_some r). unfold size in *. lia. Qed.

Lemma object_read rs : Forall fine rs -> ordered [] None false rs -> parseObject (write_object rs) = ROk (Some (contents rs)).
Proof.
  intros F O. unfold parseObject, write_object. change object_magic with [76; 78; 75; 2; 46; 7]. rewrite starts_app. cbn [rbind].
  assert (I : inv (mkPst [] [] None (-1) 6) [] None false) by (constructor; [reflexivity | constructor | reflexivity | reflexivity]).
  rewrite (loop_records rs _ [76; 78; 75; 2; 46; 7] _ [] None false O I F); [| reflexivity | rewrite app_length; pose proof (count_records rs); lia].
  rewrite (segments_result rs [] None false _ O I F), symbols_result. reflexivity.
Qed.

(** ** Libraries *)

Lemma entry_name_read name : forall n l, (length name <= n)%nat -> ~ In 32 name ->
  entry_name n (name ++ repeat 32 (n - length name) ++ l) 0 = ROk name.
Proof.
  induction name as [| b name IH]; intros n l L N.
  - cbn [length app] in *. rewrite Nat.sub_0_r. destruct n as [| n]; [reflexivity |]. reflexivity.
  - destruct n as [| n]; cbn [length] in L; [lia |]. cbn [entry_name app]. rewrite get_first. cbn [rbind].
    replace (b =? 32) with false by (destruct (b =? 32) eqn:E; [exfalso; apply N; left; lia | reflexivity]).
    assert (Q : forall k d pos, 0 <= pos -> entry_name k (b :: d) (pos + 1) = entry_name k d pos).
    { clear. induction k as [| k IH]; intros d pos H; [reflexivity |]. cbn [entry_name].
      replace (get (b :: d) (pos + 1)) with (get d pos); [rewrite (IH d (pos + 1)) by lia; reflexivity |].
      change (b :: d) with ([b] ++ d). rewrite (Z.add_comm pos 1). change 1 with (size [b]). symmetry. apply get_shift, H. }
    cbn [length Nat.sub]. rewrite (Q n _ 0) by lia. rewrite IH; [reflexivity | lia | intros I; apply N; right; exact I].
Qed.
Lemma entry_name_shift n p l : forall k, 0 <= k -> entry_name n (p ++ l) (size p + k) = entry_name n l k.
Proof.
  induction n as [| n IH]; intros k H; cbn [entry_name]; [reflexivity |].
  rewrite get_shift by assumption. rewrite <- Z.add_assoc, IH by lia. reflexivity.
Qed.
Lemma skip_names_read ss : forall fuel p l base skip, Forall (fun s => (0 < length s < 256)%nat) ss -> size p = base + skip -> (length ss < fuel)%nat ->
  skip_names fuel (p ++ flat_map text ss ++ 0 :: l) base skip = ROk (skip + size (flat_map text ss) + 1).
Proof.
  induction ss as [| s ss IH]; intros fuel p l base skip F P Fu; destruct fuel as [| fuel]; cbn [length] in Fu; try lia; cbn [flat_map skip_names].
  - cbn [app]. rewrite <- P, get_at by reflexivity. cbn [rbind]. change (0 =? 0) with true. change (size []) with 0. cbv iota. f_equal. lia.
  - inversion F as [| ? ? F1 F2]; subst. rewrite <- app_assoc. erewrite (get_in _ p); [| unfold text; lst | exact P]. cbn [rbind].
    replace (Z.of_nat (length s) =? 0) with false by lia. rewrite app_assoc.
    rewrite IH; [| exact F2 | rewrite size_app, size_text, P; unfold size; lia | lia]. rewrite size_app, size_text. f_equal. unfold size. lia.
Qed.

Lemma size_member m : (length (mb_name m) <= 16)%nat -> size (write_member m) = 20 + size (member_names m) + size (mb_data m).
Proof.
  intros H. unfold write_member. repeat rewrite size_app. rewrite size_u32b. unfold size at 2. rewrite repeat_length. unfold size. lia.
Qed.
Lemma text_count ss : (length ss <= length (flat_map text ss))%nat.
Proof. induction ss as [| s ss IH]; cbn [flat_map length]; [lia |]. rewrite app_length. unfold text at 1. cbn [length]. lia. Qed.

Lemma members_read ms : forall fuel p, Forall fine_member ms -> (length ms <= fuel)%nat ->
  members fuel (p ++ flat_map write_member ms) (size p) = ROk (map (fun m => (mb_name m, mb_data m)) ms).
Proof.
  induction ms as [| m ms IH]; intros fuel p F Fu.
  - cbn [flat_map]. rewrite app_nil_r. destruct fuel; cbn [members]; replace (size p >=? size p) with true by lia; reflexivity.
  - destruct fuel as [| fuel]; cbn [length] in Fu; [lia |]. inversion F as [| ? ? F1 F2]; subst. destruct F1 as (L & Sp & Sy & Ln).
    cbn [flat_map members map]. rewrite !size_app. pose proof (size_member m L) as Sm. fold (size (member_names m)) in Ln. fold (size (mb_data m)) in Ln.
    pose proof (size_nonneg (member_names m)). pose proof (size_nonneg (mb_data m)). pose proof (size_nonneg (flat_map write_member ms)).
    replace (size p >=? size p + (size (write_member m) + size (flat_map write_member ms))) with false by lia.
    set (rest := flat_map write_member ms).
    assert (En : entry_name 16 (p ++ write_member m ++ rest) (size p) = ROk (mb_name m)).
    { rewrite <- (Z.add_0_r (size p)), entry_name_shift by lia. unfold write_member. repeat rewrite <- app_assoc. apply entry_name_read; assumption. }
    rewrite En. cbn [rbind]. cbv zeta.
    set (total := 20 + size (member_names m) + size (mb_data m)) in *.
    set (q := p ++ mb_name m ++ repeat 32 (16 - length (mb_name m))).
    assert (Sq : size q = size p + 16). { unfold q. rewrite !size_app. unfold size at 3. rewrite repeat_length. unfold size. lia. }
    assert (E1 : p ++ write_member m ++ rest = q ++ u32b total ++ member_names m ++ mb_data m ++ rest) by (unfold write_member, q, total, size; lst).
    rewrite E1. rewrite read32_at; [| exact Sq | unfold is_int32, total; lia].
    assert (Sk : skip_names (S (length (q ++ u32b total ++ member_names m ++ mb_data m ++ rest))) (q ++ u32b total ++ member_names m ++ mb_data m ++ rest) (size p) 20 = ROk (20 + size (member_names m))).
    { unfold member_names. replace (q ++ u32b total ++ (flat_map text (mb_symbols m) ++ [0]) ++ mb_data m ++ rest)
        with ((q ++ u32b total) ++ flat_map text (mb_symbols m) ++ 0 :: mb_data m ++ rest) by lst.
      rewrite skip_names_read; [| exact Sy | rewrite size_app, size_u32b, Sq; lia |].
      - rewrite size_app. f_equal. change (size [0]) with 1. lia.
      - rewrite !app_length. pose proof (text_count (mb_symbols m)). lia. }
    rewrite Sk. cbn [rbind]. replace (total - (20 + size (member_names m))) with (size (mb_data m)) by (unfold total; lia).
    replace (q ++ u32b total ++ member_names m ++ mb_data m ++ rest) with ((q ++ u32b total ++ member_names m) ++ mb_data m ++ rest) by lst.
    rewrite mid_at; [| rewrite !size_app, size_u32b, Sq; lia]. cbn [rbind].
    replace ((q ++ u32b total ++ member_names m) ++ mb_data m ++ rest) with ((p ++ write_member m) ++ rest) by (unfold write_member, q, total, size; lst).
    replace (size p + total) with (size (p ++ write_member m)) by (rewrite size_app, Sm; reflexivity).
    unfold rest. rewrite IH; [reflexivity | exact F2 | lia].
Qed.

Lemma library_read name ms : Forall fine_member ms -> loadPsxLibrary name (write_library ms) = ROk (map (fun m => (mb_name m, mb_data m)) ms).
Proof.
  intros F. unfold loadPsxLibrary, write_library. cbn [app]. change (starts_with _ object_magic) with (ROk false : res bool). cbn [rbind].
  set (l := 76 :: 73 :: 66 :: 1 :: flat_map write_member ms).
  assert (E : l = [76; 73; 66; 1] ++ flat_map write_member ms) by reflexivity. rewrite E. change library_magic with [76; 73; 66; 1].
  rewrite starts_app. cbn [rbind]. change 4 with (size [76; 73; 66; 1]). apply members_read; [exact F |]. rewrite app_length.
  assert (Q : (length ms <= length (flat_map write_member ms))%nat).
  { clear - F. induction F as [| m ms Fm F IH]; cbn [flat_map length]; [lia |]. rewrite app_length. pose proof (size_member m (proj1 Fm)) as S. unfold size in S. lia. }
  lia.
Qed.
Lemma object_alone name rs : loadPsxLibrary name (write_object rs) = ROk [(name, write_object rs)].
Proof.
  unfold loadPsxLibrary. destruct (write_object rs) eqn:E; [discriminate |]. rewrite <- E. unfold write_object at 1.
  change object_magic with [76; 78; 75; 2; 46; 7]. rewrite starts_app. reflexivity.
Qed.

(** ** Reading ends *)

Lemma get_ends d pos : get d pos <> RErr.
Proof. unfold get. destruct (pos <? 0); [discriminate |]. destruct (nth_error _ _); discriminate. Qed.
Lemma get_ok d pos b : get d pos = ROk b -> 0 <= pos < size d /\ In b d.
Proof.
  unfold get. destruct (pos <? 0) eqn:E; [discriminate |]. destruct (nth_error d (Z.to_nat pos)) eqn:N; [| discriminate].
  intros H. inversion H; subst. split; [| eapply nth_error_In; exact N]. assert (Z.to_nat pos < length d)%nat by (apply nth_error_Some; congruence). unfold size. lia.
Qed.

Lemma get_bytes_ends n d : forall pos, get_bytes n d pos <> RErr.
Proof.
  induction n as [| n IH]; intros pos; cbn [get_bytes]; [discriminate |]. pose proof (get_ends d pos) as G. destruct (get d pos); cbn [rbind]; try congruence.
  specialize (IH (pos + 1)). destruct (get_bytes n d (pos + 1)); cbn [rbind]; congruence.
Qed.
Lemma loadString_ends d pos : loadString d pos <> RErr.
Proof.
  unfold loadString. pose proof (get_ends d pos). destruct (get d pos) as [b | |]; cbn [rbind]; try congruence.
  pose proof (get_bytes_ends (Z.to_nat b) d (pos + 1)). destruct (get_bytes _ d (pos + 1)); cbn [rbind]; congruence.
Qed.
Lemma loadString_size d pos x : Forall is_byte d -> loadString d pos = ROk x -> 0 < snd x.
Proof.
  intros B H. unfold loadString in H. destruct (get d pos) as [b | |] eqn:G; cbn [rbind] in H; try discriminate.
  destruct (get_bytes _ d (pos + 1)); cbn [rbind] in H; inversion H; subst. cbn [snd]. apply get_ok in G. rewrite Forall_forall in B. destruct (B b (proj2 G)). lia.
Qed.
Lemma mid_ends d a b : mid d a b <> RErr.
Proof. unfold mid. destruct (a >=? size d); [discriminate |]. cbv zeta. destruct (size d <? _); discriminate. Qed.
Lemma get16_low d pos : Forall is_byte d -> -1 <= get16 d pos.
Proof.
  intros B. unfold get16. destruct (pos + 1 >=? size d); [lia |].
  assert (Q : forall n, 0 <= nth n d 0).
  { intros n. destruct (Nat.lt_ge_cases n (length d)) as [L | L]; [rewrite Forall_forall in B; destruct (B _ (nth_In d 0 L)); lia | rewrite nth_overflow by exact L; lia]. }
  pose proof (Q (Z.to_nat pos)). pose proof (Q (Z.to_nat (pos + 1))). lia.
Qed.
Lemma reference_ends d t o : forall fuel v pos, size d - pos < Z.of_nat fuel -> (0 < fuel)%nat -> reference fuel d t o v pos <> RErr /\
  (forall r p, reference fuel d t o v pos = ROk (Some (r, p)) -> pos < p).
Proof.
  induction fuel as [| fuel IH]; intros v pos H Z0; [lia |]. cbn [reference]. pose proof (get_ends d pos).
  destruct (get d pos) as [b | |] eqn:G; cbn [rbind]; [| split; congruence ..]. apply get_ok in G. destruct G as (G & _).
  cbv zeta. destruct (b =? 2); [split; [discriminate | intros r p E; inversion E; lia] |].
  destruct (b =? 44).
  - pose proof (get_ends d (pos + 1)). destruct (get d (pos + 1)) as [c | |] eqn:Gc; cbn [rbind]; [| split; congruence ..]. apply get_ok in Gc. destruct Gc as (Gc & _).
    destruct (c =? 0).
    + destruct (IH (get32 d (pos + 1 + 1)) (pos + 1 + 1 + 4)) as (A & B); [lia | lia |]. split; [exact A |]. intros r p E. specialize (B r p E). lia.
    + destruct (c =? 4); [| split; discriminate]. pose proof (get_ends d (pos + 1 + 1 + 2)). destruct (get d (pos + 1 + 1 + 2)) as [z | |]; cbn [rbind]; [| split; congruence ..].
      destruct (z =? 0); [split; [discriminate | intros r p E; inversion E; lia] | split; discriminate].
  - destruct (b =? 46); [| split; discriminate]. pose proof (get_ends d (pos + 1)). destruct (get d (pos + 1)) as [c | |] eqn:Gc; cbn [rbind]; [| split; congruence ..]. apply get_ok in Gc. destruct Gc as (Gc & _).
    destruct (c =? 0); [| split; discriminate]. unfold neg_int. destruct (get32 d (pos + 1 + 1) =? -2147483648); cbn [rbind]; [split; discriminate |].
    destruct (IH (- get32 d (pos + 1 + 1)) (pos + 1 + 1 + 4)) as (A & B); [lia | lia |]. split; [exact A |]. intros r p E. specialize (B r p E). lia.
Qed.

Lemma symbol_ends d st k at_ : Forall is_byte d -> 0 <= at_ -> symbol d st k at_ <> RErr /\ forall st', symbol d st k at_ = ROk (Some st') -> st_pos st < st_pos st'.
Proof.
  intros B A. unfold symbol. pose proof (loadString_ends d (st_pos st + at_)). destruct (loadString d (st_pos st + at_)) as [x | |] eqn:L; cbn [rbind]; [| split; congruence ..].
  split; [discriminate |]. intros st' E. inversion E; subst. cbn [st_pos]. pose proof (loadString_size d _ x B L). lia.
Qed.
Lemma ok_some {A} (a b : A) : ROk (Some a) = ROk (Some b) -> a = b.
Proof. congruence. Qed.
Ltac moves := split; [discriminate | let st' := fresh in let E := fresh in intros st' E; apply ok_some in E; rewrite <- E; cbn [move with_segments st_pos]; lia].
Lemma step_ends d st : Forall is_byte d -> 0 <= st_pos st -> step d st <> RErr /\ forall st', step d st = ROk (Some st') -> st_pos st < st_pos st'.
Proof.
  intros B P. unfold step. cbv zeta. pose proof (get_ends d (st_pos st)). destruct (get d (st_pos st)) as [t | |] eqn:G; cbn [rbind]; [| split; congruence ..].
  destruct (t =? 16).
  { pose proof (get_ends d (st_pos st + 5)). destruct (get d (st_pos st + 5)) as [e | |]; cbn [rbind]; [| split; congruence ..]. destruct (e =? 8); [| split; discriminate].
    pose proof (loadString_ends d (st_pos st + 6)). destruct (loadString d (st_pos st + 6)) as [x | |] eqn:L; cbn [rbind]; [| split; congruence ..].
    pose proof (loadString_size _ _ _ B L). moves. }
  destruct (t =? 20).
  { pose proof (get_ends d (st_pos st + 4)). destruct (get d (st_pos st + 4)) as [n | |] eqn:N; cbn [rbind]; [| split; congruence ..].
    apply get_ok in N. rewrite Forall_forall in B. destruct (B n (proj2 N)). moves. }
  destruct (t =? 28).
  { pose proof (get_ends d (st_pos st + 3)). destruct (get d (st_pos st + 3)) as [n | |] eqn:N; cbn [rbind]; [| split; congruence ..].
    apply get_ok in N. rewrite Forall_forall in B. destruct (B n (proj2 N)). moves. }
  destruct (t =? 6); [moves |].
  destruct (t =? 2).
  { pose proof (mid_ends d (st_pos st + 3) (get16 d (st_pos st + 1))). destruct (mid d _ _) as [x | |]; cbn [rbind]; [| split; congruence ..].
    destruct (st_active st); [| split; discriminate]. pose proof (get16_low d (st_pos st + 1) B). moves. }
  destruct (t =? 8).
  { destruct (st_active st); [| split; discriminate]. destruct (get16 d (st_pos st + 1) <? 0); [split; discriminate |]. moves. }
  destruct (t =? 10).
  { pose proof (get_ends d (st_pos st + 1)). destruct (get d (st_pos st + 1)) as [n | |] eqn:N; cbn [rbind]; [| split; congruence ..].
    destruct (relocation_type n) as [ty |]; [| split; discriminate].
    destruct (reference_ends d ty (get16 d (st_pos st + 2) + st_part st) (S (length d)) 0 (st_pos st + 4)) as (R1 & R2); [unfold size; lia | lia |].
    destruct (reference _ d ty _ 0 (st_pos st + 4)) as [[[r p] |] | |] eqn:R; cbn [rbind]; [| split; congruence ..].
    specialize (R2 r p eq_refl). destruct (st_active st); [| split; discriminate]. moves. }
  destruct (t =? 18); [apply symbol_ends; [exact B | lia] |].
  destruct (t =? 14); [apply symbol_ends; [exact B | lia] |].
  destruct (t =? 48); [apply symbol_ends; [exact B | lia] |].
  destruct (t =? 12); [apply symbol_ends; [exact B | lia] |].
  destruct (t =? 74); [apply symbol_ends; [exact B | lia] |].
  destruct (t =? 76); [moves |]. destruct (t =? 60); [moves |]. destruct (t =? 0); [moves |]. destruct (t =? 50); [moves |]. destruct (t =? 58); [moves |].
  split; discriminate.
Qed.
Lemma loop_ends d : Forall is_byte d -> forall fuel st, 0 <= st_pos st -> size d - st_pos st <= Z.of_nat fuel -> parse_loop fuel d st <> RErr.
Proof.
  intros B. induction fuel as [| fuel IH]; intros st P H; cbn [parse_loop].
  - replace (st_pos st >=? size d) with true by lia. discriminate.
  - destruct (st_pos st >=? size d) eqn:E; [discriminate |]. destruct (step_ends d st B P) as (A & C). destruct (step d st) as [[st' |] | |]; cbn [rbind]; try congruence.
    specialize (C st' eq_refl). apply IH; lia.
Qed.
Lemma starts_ends e : forall d, starts_with d e <> RErr.
Proof. induction e as [| b e IH]; intros d; [destruct d; discriminate |]. destruct d as [| c d]; [discriminate |]. cbn [starts_with]. destruct (c =? b); [apply IH | discriminate]. Qed.
Lemma parse_ends d : Forall is_byte d -> parseObject d <> RErr.
Proof.
  intros B. unfold parseObject. pose proof (starts_ends object_magic d). destruct (starts_with d object_magic) as [[|] | |]; cbn [rbind]; try congruence.
  apply loop_ends; [exact B | cbn; lia | cbn [st_pos]; unfold size; lia].
Qed.

(** ** Unknown records *)

Lemma loop_prefix tail rs : forall fuel pre st known current piece, ordered known current piece rs -> inv st known current piece -> Forall fine rs ->
  st_pos st = size pre -> exists st', st_pos st' = size (pre ++ flat_map write rs) /\
  parse_loop (length rs + fuel) (pre ++ flat_map write rs ++ tail) st = parse_loop fuel (pre ++ flat_map write rs ++ tail) st'.
Proof.
  induction rs as [| r rs IH]; intros fuel pre st known current piece O I F P.
  - exists st. cbn [flat_map length Nat.add]. rewrite app_nil_r. split; [exact P | reflexivity].
  - cbn [length Nat.add flat_map]. inversion F as [| ? ? F1 F2]; subst. pose proof (write_some r) as W.
    destruct (next_record _ _ _ _ _ _ O I) as (N & Ps & k & c & pc & O' & I').
    destruct (IH fuel (pre ++ write r) (exec st r) k c pc O' I' F2) as (st' & Ps' & E); [rewrite Ps, P, size_app; reflexivity |].
    exists st'. rewrite app_assoc. split; [exact Ps' |]. rewrite <- app_assoc in E. rewrite <- !app_assoc in *. cbn [parse_loop].
    pose proof (size_nonneg (flat_map write rs)). pose proof (size_nonneg tail).
    replace (st_pos st >=? size (pre ++ write r ++ flat_map write rs ++ tail)) with false by (rewrite !size_app; lia).
    rewrite (step_record pre r (flat_map write rs ++ tail) st P F1 N). cbn [rbind]. exact E.
Qed.

Lemma unknown_record rs t rest : Forall fine rs -> ordered [] None false rs -> ~ In t known_tags -> parseObject (write_object rs ++ t :: rest) = ROk None.
Proof.
  intros F O T. unfold parseObject, write_object. change object_magic with [76; 78; 75; 2; 46; 7]. rewrite <- app_assoc, starts_app. cbn [rbind].
  assert (I : inv (mkPst [] [] None (-1) 6) [] None false) by (constructor; [reflexivity | constructor | reflexivity | reflexivity]).
  remember (S (length ([76; 78; 75; 2; 46; 7] ++ flat_map write rs ++ t :: rest))) as n eqn:En.
  assert (X : exists k, n = (length rs + S k)%nat).
  { exists (n - S (length rs))%nat. pose proof (count_records rs). rewrite !app_length in En. cbn [length] in En. lia. }
  destruct X as (k & ->). clear En. destruct (loop_prefix (t :: rest) rs (S k) [76; 78; 75; 2; 46; 7] _ [] None false O I F eq_refl) as (st' & Ps & E).
  rewrite E. cbn [parse_loop]. rewrite app_assoc. pose proof (size_nonneg rest).
  replace (st_pos st' >=? size (([76; 78; 75; 2; 46; 7] ++ flat_map write rs) ++ t :: rest)) with false by (rewrite size_app, size_cons; lia).
  unfold step. rewrite Ps.
  replace (get _ (size ([76; 78; 75; 2; 46; 7] ++ flat_map write rs))) with (ROk t).
  2: { symmetry. unfold get. pose proof (size_nonneg ([76; 78; 75; 2; 46; 7] ++ flat_map write rs)).
       replace (size ([76; 78; 75; 2; 46; 7] ++ flat_map write rs) <? 0) with false by lia.
       unfold size. rewrite Nat2Z.id, nth_error_app2, Nat.sub_diag by lia. reflexivity. }
  cbn [rbind]. unfold known_tags in T. cbn [In] in T.
  repeat match goal with |- context [t =? ?c] => replace (t =? c) with false by (clear - T; lia) end. reflexivity.
Qed.
