(** Proofs for reading archives. *)

Require Import ZArith Lia Bool String List.
Require Import ZifyBool.
Require Import Verif.Ints Verif.IntsLemmas Verif.Res Verif.BytesSpec Verif.ElfModel Verif.PsxModel Verif.ElfReadModel Verif.ElfReadSpec Verif.ElfReadProofs.
Import ListNotations.
Local Open Scope Z_scope.

Lemma has_app3 p x l : has (p ++ x ++ l) (size p) x.
Proof.
  split; [apply size_nonneg |]. unfold size. rewrite Nat2Z.id. rewrite skipn_app, skipn_all, Nat.sub_diag. cbn [app skipn]. rewrite firstn_app, firstn_all, Nat.sub_diag. cbn [firstn]. apply app_nil_r.
Qed.

(** ** Sizes *)

Definition value (l : list Z) (v : Z) : Z := fold_left (fun v c => v * 10 + (c - 48)) l v.
Lemma value_grows l : forall v, Forall (fun c => 48 <= c < 58) l -> 0 <= v -> v <= value l v.
Proof. induction l as [| c l IH]; intros v F V; [cbn; lia |]. inversion F; subst. cbn [value fold_left]. fold (value l (v * 10 + (c - 48))). specialize (IH (v * 10 + (c - 48)) ltac:(assumption) ltac:(lia)). lia. Qed.
Lemma member_size_read d : forall l pos n v, has d pos l -> Forall (fun c => 48 <= c < 58) l -> 0 <= v -> value l v < 2147483648 ->
  n = List.length l \/ (List.length l < n)%nat /\ has d (pos + size l) [32] -> member_size n d pos v = ROk (value l v).
Proof.
  induction l as [| c l IH]; intros pos n v H F V B C.
  - cbn [value fold_left]. destruct C as [-> | (C & S)]; [reflexivity |]. destruct n as [| n]; [cbn in C; lia |]. cbn [member_size]. change (size []) with 0 in S. rewrite Z.add_0_r in S. rewrite (get_has _ _ _ S). reflexivity.
  - destruct n as [| n]; [cbn in C; lia |]. change (c :: l) with ([c] ++ l) in H. apply has_app in H. destruct H as (H & T). change (size [c]) with 1 in T.
    inversion F as [| ? ? F1 F2]; subst. cbn [member_size]. rewrite (get_has _ _ _ H). cbn [rbind]. destruct (Z.eqb_spec c 32); [lia |].
    cbn [value fold_left] in B. fold (value l (v * 10 + (c - 48))) in B. assert (G := value_grows l (v * 10 + (c - 48)) F2 ltac:(lia)).
    rewrite s32_small by lia. rewrite Z.eqb_refl. cbn [rbind]. unfold add_int. rewrite s8_small by lia. rewrite s32_small by lia. rewrite Z.eqb_refl. cbn [rbind].
    rewrite IH; [reflexivity | exact T | exact F2 | lia | exact B |]. destruct C as [C | (C & S)]; [left; cbn in C; lia |]. right. split; [cbn in C; lia |].
    apply (has_pos _ _ _ _ S). unfold size. cbn [List.length]. lia.
Qed.
Lemma digits_value : forall f n, 0 <= n < 10 ^ Z.of_nat f -> Forall (fun c => 48 <= c < 58) (digits f n) /\ value (digits f n) 0 = n /\ (List.length (digits f n) <= f)%nat.
Proof.
  induction f as [| f IH]; intros n R.
  - change (10 ^ Z.of_nat 0) with 1 in R. split; [apply Forall_nil |]. split; [cbn; lia | cbn; lia].
  - cbn [digits]. destruct (Z.ltb_spec n 10).
    + split; [repeat constructor; lia |]. split; [unfold value; cbn [fold_left]; lia | cbn [List.length]; lia].
    + rewrite Nat2Z.inj_succ, Z.pow_succ_r in R by lia. destruct (IH (n / 10)) as (A & B & C); [lia |]. split; [apply Forall_app; split; [exact A | repeat constructor; lia] |].
      split; [| rewrite app_length; cbn; lia]. unfold value in *. rewrite fold_left_app, B. cbn [fold_left]. lia.
Qed.
Lemma padded_length n l : (List.length l <= n)%nat -> List.length (padded n l) = n.
Proof. intros H. unfold padded. rewrite app_length, repeat_length. lia. Qed.
Lemma padded_space n l d pos : has d pos (padded n l) -> (List.length l <= n)%nat -> n = List.length l \/ (List.length l < n)%nat /\ has d (pos + size l) [32].
Proof.
  unfold padded. intros H L. apply has_app in H. destruct H as (_ & H). destruct (Nat.eq_dec n (List.length l)) as [E | E]; [left; exact E |]. right. split; [lia |].
  replace (n - List.length l)%nat with (S (n - S (List.length l))) in H by lia. change (repeat 32 (S (n - S (List.length l)))) with ([32] ++ repeat 32 (n - S (List.length l))) in H.
  apply has_app in H. apply H.
Qed.
Lemma size_read d pos n : has d pos (padded 10 (decimal n)) -> 0 <= n < 2147483648 -> member_size 10 d pos 0 = ROk n.
Proof.
  intros H R. unfold decimal in *. destruct (digits_value 10 n) as (A & B & C); [change (10 ^ Z.of_nat 10) with 10000000000; lia |].
  assert (S := padded_space _ _ _ _ H C). apply has_app in H. destruct H as (H & _).
  rewrite (member_size_read d (digits 10 n) pos 10 0 H A ltac:(lia)); [rewrite B; reflexivity | lia | exact S].
Qed.

(** ** Names *)

Lemma name_chars_read d : forall l pos n, has d pos l -> ~ In 32 l -> (List.length l < n)%nat -> has d (pos + size l) [32] -> name_chars n d pos = ROk (l, true).
Proof.
  induction l as [| c l IH]; intros pos n H N L S; (destruct n as [| n]; [cbn in L; lia |]); cbn [name_chars].
  - change (size []) with 0 in S. rewrite Z.add_0_r in S. rewrite (get_has _ _ _ S). reflexivity.
  - change (c :: l) with ([c] ++ l) in H. apply has_app in H. destruct H as (H & T). change (size [c]) with 1 in T. rewrite (get_has _ _ _ H). cbn [rbind].
    destruct (Z.eqb_spec c 32) as [-> | C]; [elim N; left; reflexivity |]. rewrite (IH (pos + 1) n T); [reflexivity | intros I; apply N; right; exact I | cbn in L; lia |].
    apply (has_pos _ _ _ _ S). unfold size. cbn [List.length]. lia.
Qed.
Lemma without_slash_read l : without_slash (l ++ [47]) = l.
Proof. induction l as [| c l IH]; [reflexivity |]. cbn [app]. destruct l as [| c' l]; [reflexivity |]. cbn [without_slash app] in *. f_equal. exact IH. Qed.
Lemma until_zero_read l : ~ In 0 l -> until_zero l = l.
Proof. induction l as [| c l IH]; intros N; [reflexivity |]. cbn [until_zero]. destruct (Z.eqb_spec c 0) as [-> | C]; [elim N; left; reflexivity |]. rewrite IH; [reflexivity | intros I; apply N; right; exact I]. Qed.
Lemma name_read d pos name : has d pos (padded 16 (name ++ [47])) -> (List.length name < 15)%nat -> Forall (fun c => c <> 0 /\ c <> 32) name -> member_name d pos = ROk name.
Proof.
  intros H L F. assert (S := padded_space _ _ _ _ H). rewrite app_length in S. cbn [List.length] in S. destruct S as [S | (_ & S)]; [lia | lia |].
  apply has_app in H. destruct H as (H & _). rewrite Forall_forall in F. unfold member_name. rewrite (name_chars_read d (name ++ [47]) pos 16 H).
  - cbn [rbind fst snd]. rewrite without_slash_read, until_zero_read; [reflexivity |]. intros I. destruct (F 0 I) as (Q & _). apply Q. reflexivity.
  - intros I. apply in_app_or in I. destruct I as [I | [I | []]]; [destruct (F 32 I) as (_ & Q); apply Q; reflexivity | discriminate I].
  - rewrite app_length. cbn. lia.
  - exact S.
Qed.

(** ** Members *)

Lemma starts_same : forall m x l, List.length x = List.length m -> starts_with (x ++ l) m = ROk (if list_eq_dec Z.eq_dec x m then true else false).
Proof.
  induction m as [| c m IH]; intros [| b x] l L; try discriminate L; [destruct l; reflexivity |]. cbn [app starts_with]. destruct (Z.eqb_spec b c) as [-> | D].
  - rewrite IH by (cbn in L; lia). destruct (list_eq_dec Z.eq_dec x m) as [-> | D].
    + destruct (list_eq_dec Z.eq_dec (c :: m) (c :: m)); [reflexivity | contradiction].
    + destruct (list_eq_dec Z.eq_dec (c :: x) (c :: m)) as [E | _]; [injection E as E; contradiction | reflexivity].
  - destruct (list_eq_dec Z.eq_dec (b :: x) (c :: m)) as [E | _]; [injection E as E _; contradiction | reflexivity].
Qed.
Lemma elf_read d pos m : has d pos (am_data m) -> 4 <= size (am_data m) -> starts_with (skipn (Z.to_nat pos) d) elf_magic = ROk (is_elf m).
Proof.
  intros (P & H) L. unfold is_elf. assert (E : skipn (Z.to_nat pos) d = firstn 4 (am_data m) ++ skipn 4 (skipn (Z.to_nat pos) d)).
  { rewrite <- (firstn_skipn 4 (skipn (Z.to_nat pos) d)) at 1. f_equal. transitivity (firstn 4 (firstn (List.length (am_data m)) (skipn (Z.to_nat pos) d))); [| rewrite H; reflexivity]. rewrite firstn_firstn. f_equal. unfold size in L. lia. }
  rewrite E. apply starts_same. rewrite firstn_length. unfold size in L. change (List.length elf_magic) with 4%nat. lia.
Qed.
Lemma amember_size m : fine_amember m -> size (write_amember m) = 60 + size (am_data m) + (if Z.odd (size (am_data m)) then 1 else 0).
Proof.
  intros (A & B & C & D & E). unfold write_amember. rewrite !size_app.
  assert (G : (List.length (decimal (size (am_data m))) <= 10)%nat) by (apply digits_value; change (10 ^ Z.of_nat 10) with 10000000000; lia).
  assert (S1 : size (padded 16 (am_name m ++ [47])) = 16) by (unfold size; rewrite padded_length by (rewrite app_length; cbn; lia); reflexivity).
  assert (S2 : size (am_fields m) = 32) by (unfold size; rewrite C; reflexivity). assert (S4 : size (am_end m) = 2) by (unfold size; rewrite D; reflexivity).
  assert (S3 : size (padded 10 (decimal (size (am_data m)))) = 10) by (unfold size at 1; rewrite padded_length by exact G; reflexivity).
  rewrite S1, S2, S3, S4. destruct (Z.odd (size (am_data m))); [change (size [10]) with 1 | change (size []) with 0]; lia.
Qed.
Lemma even_total ms : Forall fine_amember ms -> Z.odd (size (flat_map write_amember ms)) = false.
Proof.
  induction ms as [| m ms IH]; intros F; [reflexivity |]. inversion F; subst. cbn [flat_map]. rewrite size_app, Z.odd_add, IH by assumption. rewrite amember_size by assumption. rewrite !Z.odd_add.
  destruct (Z.odd (size (am_data m))); reflexivity.
Qed.
Lemma ar_loop_read ms : forall pre fuel, Forall fine_amember ms -> Z.odd (size pre) = false -> (List.length ms <= fuel)%nat ->
  ar_loop fuel (pre ++ flat_map write_amember ms) (size pre) = ROk (map (fun m => (am_name m, am_data m)) (filter is_elf ms)).
Proof.
  induction ms as [| m ms IH]; intros pre fuel F O L.
  - cbn [flat_map map filter]. rewrite app_nil_r. assert (E : (size pre <? 0) || (size pre >=? size pre) = true) by (assert (V := size_nonneg pre); lia). destruct fuel; cbn [ar_loop]; rewrite E; reflexivity.
  - destruct fuel as [| fuel]; [cbn in L; lia |]. inversion F as [| ? ? Fm Fs]; subst. cbn [ar_loop]. set (d := pre ++ flat_map write_amember (m :: ms)).
    assert (W : has d (size pre) (write_amember m)) by (unfold d; cbn [flat_map]; apply has_app3).
    assert (Sz := has_size _ _ _ W). rewrite (amember_size _ Fm) in Sz. destruct Fm as (A & B & C & D & E).
    assert (G : (List.length (decimal (size (am_data m))) <= 10)%nat) by (apply digits_value; change (10 ^ Z.of_nat 10) with 10000000000; lia).
    assert (V := size_nonneg pre). unfold write_amember in W. apply has_app in W. destruct W as (Wn & W).
    assert (S1 : size (padded 16 (am_name m ++ [47])) = 16) by (unfold size; rewrite padded_length by (rewrite app_length; cbn; lia); reflexivity). rewrite S1 in W.
    apply has_app in W. destruct W as (_ & W). assert (S2 : size (am_fields m) = 32) by (unfold size; rewrite C; reflexivity). rewrite S2 in W.
    apply has_app in W. destruct W as (Ws & W). assert (S3 : size (padded 10 (decimal (size (am_data m)))) = 10) by (unfold size at 1; rewrite padded_length by exact G; reflexivity). rewrite S3 in W.
    apply has_app in W. destruct W as (_ & W). assert (S4 : size (am_end m) = 2) by (unfold size; rewrite D; reflexivity). rewrite S4 in W.
    apply has_app in W. destruct W as (Wd & _).
    assert (Ne : write_amember m <> []) by (unfold write_amember, padded; destruct (am_name m); discriminate). specialize (Sz Ne).
    assert (Q : (size pre <? 0) || (size pre >=? size d) = false) by (destruct (Z.odd (size (am_data m))); lia). rewrite Q.
    replace (size pre + 48) with (size pre + 16 + 32) by lia. rewrite (size_read _ _ _ Ws) by lia. cbn [rbind]. cbv zeta.
    replace (size pre + 16 + 32 + 10 + 2) with (size pre + 60) in Wd by lia. rewrite (elf_read _ _ _ Wd) by lia. cbn [rbind]. rewrite (name_read _ _ _ Wn A B). rewrite (mid_has _ _ _ Wd).
    assert (Nx : (if Z.odd (size pre + 60 + size (am_data m)) then size pre + 60 + size (am_data m) + 1 else size pre + 60 + size (am_data m)) = size (pre ++ write_amember m)).
    { rewrite size_app, amember_size by (unfold fine_amember; auto). rewrite !Z.odd_add, O. change (Z.odd 60) with false. destruct (Z.odd (size (am_data m))); cbn [xorb]; lia. }
    rewrite Nx. unfold d. cbn [flat_map]. rewrite app_assoc. rewrite IH; [| exact Fs | | cbn in L; lia].
    + cbn [filter]. destruct (is_elf m); reflexivity.
    + rewrite size_app, amember_size by (unfold fine_amember; auto). rewrite !Z.odd_add, O. destruct (Z.odd (size (am_data m))); reflexivity.
Qed.
Lemma starts_magic m l : starts_with (m ++ l) m = ROk true.
Proof. rewrite starts_same by reflexivity. destruct (list_eq_dec Z.eq_dec m m); [reflexivity | contradiction]. Qed.
Lemma count_members ms : (List.length ms <= List.length (flat_map write_amember ms))%nat.
Proof.
  induction ms as [| m ms IH]; [cbn; lia |]. cbn [flat_map List.length]. rewrite app_length. assert (0 < List.length (write_amember m))%nat; [| lia].
  unfold write_amember, padded. rewrite !app_length. cbn. lia.
Qed.
Lemma archive_read name ms : Forall fine_amember ms -> loadArArchive name (write_archive ms) = ROk (map (fun m => (am_name m, am_data m)) (filter is_elf ms)).
Proof.
  intros F. unfold loadArArchive, write_archive. rewrite size_app. change (size archive_magic) with 8. assert (V := size_nonneg (flat_map write_amember ms)).
  destruct (Z.ltb_spec (8 + size (flat_map write_amember ms)) 8); [lia |]. rewrite starts_magic. cbn [rbind]. 
  apply (ar_loop_read ms archive_magic); [exact F | reflexivity |]. rewrite app_length. assert (C := count_members ms). lia.
Qed.
Lemma object_entry name d : has d 0 elf_magic -> loadArArchive name d = ROk [(name, d)].
Proof.
  intros H. assert (S := has_size _ _ _ H ltac:(discriminate)). change (size elf_magic) with 4 in S. destruct H as (_ & H). cbn [Z.to_nat skipn] in H.
  assert (E : d = elf_magic ++ skipn 4 d) by (rewrite <- (firstn_skipn 4 d) at 1; f_equal; exact H). unfold loadArArchive.
  assert (A : (if size d <? 8 then ROk false else starts_with d archive_magic) = ROk false) by (destruct (size d <? 8); [reflexivity |]; rewrite E; reflexivity).
  rewrite A. cbn [rbind]. destruct (Z.ltb_spec (size d) 4); [lia |]. rewrite E at 1. rewrite starts_magic. reflexivity.
Qed.

(** The files of an archive are read one after the other. *)
Lemma files_read m big (es : list (list Z * list Z)) fs : Forall2 (fun e f => init_file m big (snd e) = ROk (Some f)) es fs -> init_files m big es = ROk (Some fs).
Proof. induction 1 as [| e f es fs H F IH]; [reflexivity |]. cbn [init_files]. rewrite H. cbn [rbind]. rewrite IH. reflexivity. Qed.
Lemma files_refused m big (es : list (list Z * list Z)) fs e rest : Forall2 (fun e f => init_file m big (snd e) = ROk (Some f)) es fs -> init_file m big (snd e) = ROk None ->
  init_files m big (es ++ e :: rest) = ROk None.
Proof. intros F N. induction F as [| x f es fs H F IH]; cbn [app init_files]; [rewrite N; reflexivity |]. rewrite H. cbn [rbind]. rewrite IH. reflexivity. Qed.

Lemma starts_has d m : size m <= size d -> exists b, starts_with d m = ROk b /\ (b = true <-> has d 0 m).
Proof.
  intros L. exists (if list_eq_dec Z.eq_dec (firstn (List.length m) d) m then true else false). split.
  - rewrite <- (firstn_skipn (List.length m) d) at 1. apply starts_same. rewrite firstn_length. unfold size in L. lia.
  - unfold has. cbn [Z.to_nat skipn]. destruct (list_eq_dec Z.eq_dec (firstn (List.length m) d) m) as [E | E]; split; intros H; try discriminate; [split; [lia | exact E] | reflexivity | elim E; apply H].
Qed.
Lemma foreign_refused m big name d : ~ has d 0 elf_magic -> ~ has d 0 archive_magic -> init_elf m big name d = ROk None.
Proof.
  intros E A. unfold init_elf, loadArArchive.
  assert (Q : (if size d <? 8 then ROk false else starts_with d archive_magic) = ROk false).
  { destruct (Z.ltb_spec (size d) 8); [reflexivity |]. destruct (starts_has d archive_magic) as (b & -> & B); [change (size archive_magic) with 8; lia |]. destruct b; [elim A; apply B; reflexivity | reflexivity]. }
  rewrite Q. cbn [rbind].
  assert (R : (if size d <? 4 then ROk false else starts_with d elf_magic) = ROk false).
  { destruct (Z.ltb_spec (size d) 4); [reflexivity |]. destruct (starts_has d elf_magic) as (b & -> & B); [change (size elf_magic) with 4; lia |]. destruct b; [elim E; apply B; reflexivity | reflexivity]. }
  rewrite R. reflexivity.
Qed.

(** An object among those to be read. *)
Lemma entries_read m big ms xs :
  Forall2 (fun (a : amember) (x : ehdr * list osec) => file_of big (am_data a) (fst x) (snd x) /\ one_each (snd x) /\ one_table (e_shstrndx (fst x)) (snd x) /\
             e_type (fst x) = 1 /\ e_machine (fst x) = expectedMachine m) ms xs ->
  Forall2 (fun e f => init_file m big (snd e) = ROk (Some f)) (map (fun a => (am_name a, am_data a)) ms)
    (map (fun x : ehdr * list osec => (mkFile big (object_sections big (snd x)) (object_symbols (snd x)), object_ctors (snd x))) xs).
Proof.
  induction 1 as [| a x ms xs (F & O & T & Ty & Ma) _ IH]; [apply Forall2_nil |]. cbn [map]. apply Forall2_cons; [| exact IH]. cbn [snd]. exact (object_read m big _ _ _ F O T Ty Ma).
Qed.
Lemma library_read m big name ms xs : Forall fine_amember ms ->
  Forall2 (fun (a : amember) (x : ehdr * list osec) => file_of big (am_data a) (fst x) (snd x) /\ one_each (snd x) /\ one_table (e_shstrndx (fst x)) (snd x) /\
             e_type (fst x) = 1 /\ e_machine (fst x) = expectedMachine m) (filter is_elf ms) xs -> xs <> [] ->
  init_elf m big name (write_archive ms) = ROk (Some (map (fun x => (mkFile big (object_sections big (snd x)) (object_symbols (snd x)), object_ctors (snd x))) xs)).
Proof.
  intros F X N. unfold init_elf. rewrite (archive_read name ms F). cbn [rbind]. assert (E := entries_read _ _ _ _ X). destruct X as [| a x as' xs' X Xs]; [contradiction |].
  cbn [map] in *. exact (files_read _ _ _ _ E).
Qed.
Lemma alone_read m big name d h ss : has d 0 elf_magic -> file_of big d h ss -> one_each ss -> one_table (e_shstrndx h) ss -> e_type h = 1 -> e_machine h = expectedMachine m ->
  init_elf m big name d = ROk (Some [(mkFile big (object_sections big ss) (object_symbols ss), object_ctors ss)]).
Proof. intros M F O T Ty Ma. unfold init_elf. rewrite (object_entry name d M). cbn [rbind init_files snd]. rewrite (object_read m big d h ss F O T Ty Ma). reflexivity. Qed.
Lemma library_refused m big name ms before xs a rest big' h ss : Forall fine_amember ms -> filter is_elf ms = before ++ a :: rest ->
  Forall2 (fun (a : amember) (x : ehdr * list osec) => file_of big (am_data a) (fst x) (snd x) /\ one_each (snd x) /\ one_table (e_shstrndx (fst x)) (snd x) /\
             e_type (fst x) = 1 /\ e_machine (fst x) = expectedMachine m) before xs ->
  file_of big' (am_data a) h ss -> (e_type h <> 1 \/ e_machine h <> expectedMachine m \/ big' <> big) -> init_elf m big name (write_archive ms) = ROk None.
Proof.
  intros F E X Fa C. unfold init_elf. rewrite (archive_read name ms F), E, map_app. cbn [rbind map]. rewrite (files_refused _ _ _ _ _ _ (entries_read _ _ _ _ X)); [| exact (object_refused m big _ big' h ss Fa C)].
  destruct (map (fun m0 : amember => (am_name m0, am_data m0)) before); reflexivity.
Qed.
