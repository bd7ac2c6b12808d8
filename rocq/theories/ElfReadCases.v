(** Objects and archives for the cases beside the theorems on reading them. *)

Require Import ZArith Lia Bool String List Ascii.
Require Import ZifyBool.
Require Import Verif.Ints Verif.Res Verif.BytesSpec Verif.ElfModel Verif.PsxModel Verif.ElfReadModel Verif.ElfReadSpec Verif.ElfReadProofs.
Import ListNotations.
Local Open Scope Z_scope.

(** ** Checking that bytes are a file *)

Definition same (x y : list Z) : bool := if list_eq_dec Z.eq_dec x y then true else false.
Definition hasb (d : list Z) (pos : Z) (x : list Z) : bool := (0 <=? pos) && same (firstn (List.length x) (skipn (Z.to_nat pos) d)) x.
Definition halfb (v : Z) : bool := (0 <=? v) && (v <? 65536).
Definition wordb (v : Z) : bool := (0 <=? v) && (v <? 4294967296).
Definition byteb (v : Z) : bool := (0 <=? v) && (v <? 256).
Definition relb (rela : bool) (r : erel) : bool :=
  wordb (r_offset r) && byteb (r_type r) && (0 <=? r_sym r) && (r_sym r <? 16777216) &&
  (if rela then (-2147483648 <=? r_addend r) && (r_addend r <? 2147483648) else r_addend r =? 0).
Definition symb (y : osym) : bool :=
  wordb (oy_pos y) && wordb (oy_value y) && wordb (oy_size y) && (0 <=? oy_bind y) && (oy_bind y <? 16) && (0 <=? oy_type y) && (oy_type y <? 16) &&
  byteb (oy_other y) && halfb (oy_shndx y).
Definition bodyb (s : osec) : bool :=
  let t := sh_type (os_hdr s) in
  match os_body s with
  | Plain d => negb (t =? SHT_REL) && negb (t =? SHT_RELA) && negb (t =? SHT_SYMTAB)
  | Relocations rs => ((t =? SHT_REL) || (t =? SHT_RELA)) && forallb (relb (is_rela s)) rs
  | Symbols ys => (t =? SHT_SYMTAB) && forallb symb ys
  end.
Definition no_bitsb (s : osec) : bool := (sh_type (os_hdr s) =? SHT_NULL) || (sh_type (os_hdr s) =? SHT_NOBITS).
Definition sectionb (big : bool) (d : list Z) (pos : Z) (s : osec) : bool :=
  hasb d pos (shdr_bytes big (os_hdr s)) && forallb wordb (shdr_fields (os_hdr s)) && bodyb s &&
  (if no_bitsb s then match os_body s with Plain [] => true | _ => false end
   else hasb d (sh_offset (os_hdr s)) (content big s) && (sh_size (os_hdr s) =? size (content big s))).
Fixpoint sectionsb (big : bool) (d : list Z) (pos step : Z) (ss : list osec) : bool :=
  match ss with [] => true | s :: ss => sectionb big d pos s && sectionsb big d (pos + step) step ss end.
Definition namesb (table : list Z) (pos : Z) (name : list Z) : bool := hasb table pos (name ++ [0]) && negb (existsb (Z.eqb 0) name).
Definition section_namesb (big : bool) (k : Z) (ss : list osec) : bool :=
  if k =? 0 then forallb (fun s => same (os_name s) []) ss
  else match nth_error ss (Z.to_nat k) with
       | None => false
       | Some t => negb (no_bitsb t) && forallb (fun b => (b =? 0) || (32 <=? b) && (b <? 128)) (content big t) &&
                   forallb (fun s => if sh_type (os_hdr s) =? SHT_NULL then same (os_name s) [] else namesb (content big t) (sh_name (os_hdr s)) (os_name s)) ss
       end.
Definition symbol_namesb (big : bool) (ss : list osec) : bool :=
  forallb (fun t => match os_body t with
                    | Symbols ys => match nth_error ss (Z.to_nat (sh_link (os_hdr t))) with
                                    | None => false
                                    | Some u => (sh_type (os_hdr u) =? SHT_STRTAB) && forallb (fun y => namesb (content big u) (oy_pos y) (oy_name y)) ys
                                    end
                    | _ => true
                    end) ss.
Definition headerb (big : bool) (h : ehdr) : bool :=
  Nat.eqb (List.length (e_ident h)) 16 && Bool.eqb (is_big (e_ident h)) big &&
  forallb halfb [e_type h; e_machine h; e_ehsize h; e_phentsize h; e_phnum h; e_shentsize h; e_shnum h; e_shstrndx h] &&
  forallb wordb [e_version h; e_entry h; e_phoff h; e_shoff h; e_flags h].
Definition fileb (big : bool) (d : list Z) (h : ehdr) (ss : list osec) : bool :=
  (size d <? 2147483648) && forallb byteb d && hasb d 0 (ehdr_bytes big h) && headerb big h && (e_phnum h =? 0) && (e_shnum h =? Z.of_nat (List.length ss)) &&
  sectionsb big d (e_shoff h) (e_shentsize h) ss && section_namesb big (e_shstrndx h) ss && symbol_namesb big ss.

Lemma same_eq x y : same x y = true -> x = y.
Proof. unfold same. destruct (list_eq_dec Z.eq_dec x y); [trivial | discriminate]. Qed.
Lemma hasb_has d pos x : hasb d pos x = true -> has d pos x.
Proof. unfold hasb, has. intros H. apply andb_prop in H. destruct H as (P & H). split; [lia | exact (same_eq _ _ H)]. Qed.
Lemma all_of {A} (f : A -> bool) (P : A -> Prop) l : (forall x, f x = true -> P x) -> forallb f l = true -> Forall P l.
Proof. intros I H. rewrite forallb_forall in H. apply Forall_forall. intros x X. apply I, H, X. Qed.
Lemma wordb_word v : wordb v = true -> is_word v.
Proof. unfold wordb, is_word. lia. Qed.
Lemma halfb_half v : halfb v = true -> is_half v.
Proof. unfold halfb, is_half. lia. Qed.
Lemma byteb_byte v : byteb v = true -> is_byte v.
Proof. unfold byteb, is_byte. lia. Qed.
Lemma bodyb_fine s : bodyb s = true -> fine_body s.
Proof.
  unfold bodyb, fine_body. cbv zeta. destruct (os_body s) as [d | rs | ys]; intros H.
  - repeat split; lia.
  - apply andb_prop in H. destruct H as (T & H). split; [lia |]. revert H. apply all_of. intros r. unfold relb, fine_rel, wordb, is_word, byteb, is_int32. destruct (is_rela s); lia.
  - apply andb_prop in H. destruct H as (T & H). split; [lia |]. revert H. apply all_of. intros y. unfold symb, fine_sym, wordb, is_word, byteb, is_byte, halfb, is_half. lia.
Qed.
Lemma sectionb_in big d pos s : sectionb big d pos s = true -> section_in big d pos s.
Proof.
  unfold sectionb. intros H. repeat match type of H with _ && _ = true => apply andb_prop in H; destruct H as (H & ?) end.
  assert (N : no_bitsb s = true <-> no_bits s) by (unfold no_bitsb, no_bits; lia). constructor.
  - apply hasb_has. assumption.
  - apply (all_of _ _ _ wordb_word). assumption.
  - apply bodyb_fine. assumption.
  - intros Q. destruct (no_bitsb s); [elim Q; apply N; reflexivity |]. match goal with X : _ && _ = true |- _ => apply andb_prop in X; destruct X as (X & Y) end. split; [apply hasb_has; assumption | lia].
  - intros Q. apply N in Q. rewrite Q in *. destruct (os_body s) as [[|] | |]; try discriminate. reflexivity.
Qed.
Lemma sectionsb_in big d step ss : forall pos, sectionsb big d pos step ss = true -> forall i s, nth_error ss i = Some s -> section_in big d (pos + Z.of_nat i * step) s.
Proof.
  induction ss as [| t ss IH]; intros pos H i s E; [destruct i; discriminate E |]. cbn [sectionsb] in H. apply andb_prop in H. destruct H as (T & H). destruct i as [| i].
  - injection E as <-. replace (pos + Z.of_nat 0 * step) with pos by lia. apply sectionb_in, T.
  - replace (pos + Z.of_nat (S i) * step) with (pos + step + Z.of_nat i * step) by lia. apply (IH _ H). exact E.
Qed.
Lemma namesb_names t p n : namesb t p n = true -> names t p n.
Proof.
  unfold namesb, names. intros H. apply andb_prop in H. destruct H as (H & N). split; [apply hasb_has, H |]. intros I. apply negb_true_iff in N.
  assert (C : existsb (Z.eqb 0) n = true) by (apply existsb_exists; exists 0; split; [exact I | reflexivity]). rewrite C in N. discriminate N.
Qed.
Lemma fileb_file big d h ss : fileb big d h ss = true -> file_of big d h ss.
Proof.
  unfold fileb. intros H. repeat match type of H with _ && _ = true => apply andb_prop in H; destruct H as (H & ?) end. constructor.
  - lia.
  - eapply all_of; [exact byteb_byte | assumption].
  - apply hasb_has. assumption.
  - unfold headerb in *. repeat match goal with X : _ && _ = true |- _ => apply andb_prop in X; destruct X as (X & ?) end. split; [apply Nat.eqb_eq; assumption |].
    split; [apply Bool.eqb_prop; assumption |]. split; eapply all_of; try eassumption; [exact halfb_half | exact wordb_word].
  - lia.
  - lia.
  - apply sectionsb_in. assumption.
  - match goal with X : section_namesb _ _ _ = true |- _ => revert X end. clear. unfold section_namesb, section_names. destruct (e_shstrndx h =? 0).
    + apply all_of. intros s. apply same_eq.
    + destruct (nth_error ss (Z.to_nat (e_shstrndx h))) as [t |]; [| discriminate]. intros H. repeat match type of H with _ && _ = true => apply andb_prop in H; destruct H as (H & ?) end. exists t. split; [reflexivity |].
      split; [unfold no_bitsb, no_bits in *; lia |]. split; [eapply all_of; [| eassumption]; cbv beta; intros b Q; lia |].
      eapply all_of; [| eassumption]. cbv beta. intros s. destruct (sh_type (os_hdr s) =? SHT_NULL); [apply same_eq | apply namesb_names].
  - match goal with X : symbol_namesb _ _ = true |- _ => revert X end. clear. unfold symbol_namesb, symbol_names. intros H t ys I E. rewrite forallb_forall in H. specialize (H t I). rewrite E in H.
    destruct (nth_error ss (Z.to_nat (sh_link (os_hdr t)))) as [u |]; [| discriminate]. apply andb_prop in H. destruct H as (T & H). exists u. split; [reflexivity |]. split; [lia |].
    revert H. apply all_of. intros y. apply namesb_names.
Qed.

(** ** Objects *)

Definition chars (s : string) : list Z := map (fun c => Z.of_N (N_of_ascii c)) (list_ascii_of_string s).
(** Sections one behind the other, headers at the end. *)
Definition placed (pos : Z) (big : bool) (s : osec) : osec :=
  let h := os_hdr s in
  mkOsec (mkShdr (sh_name h) (sh_type h) (sh_flags h) (sh_addr h) pos (if no_bitsb s then sh_size h else size (content big s)) (sh_link h) (sh_info h) (sh_addralign h) (sh_entsize h))
    (os_name s) (os_body s).
Fixpoint place (pos : Z) (big : bool) (ss : list osec) : list osec :=
  match ss with [] => [] | s :: ss => placed pos big s :: place (pos + size (content big s)) big ss end.
Definition header (big : bool) (type machine : Z) (ss : list osec) (k : Z) : ehdr :=
  mkEhdr ([127; 69; 76; 70; 1; if big then 2 else 1; 1] ++ repeat 0 9) type machine 1 0 0 (52 + size (flat_map (content big) ss)) 0x1000 52 0 0 40 (Z.of_nat (List.length ss)) k.
Definition build (big : bool) (h : ehdr) (ss : list osec) : list Z :=
  ehdr_bytes big h ++ flat_map (content big) ss ++ flat_map (fun s => shdr_bytes big (os_hdr s)) ss.

Definition zero : list Z := [0].
Definition table_of_sections : list Z :=
  zero ++ chars ".text" ++ zero ++ chars ".rel.text" ++ zero ++ chars ".ctors" ++ zero ++ chars ".rela.ctors" ++ zero ++ chars ".bss" ++ zero
  ++ chars ".symtab" ++ zero ++ chars ".strtab" ++ zero ++ chars ".shstrtab" ++ zero.
Definition table_of_symbols : list Z := zero ++ chars "Main" ++ zero ++ chars "printf" ++ zero ++ chars "buffer" ++ zero.
Definition null_section : osec := mkOsec (mkShdr 0 0 0 0 0 0 0 0 0 0) [] (Plain []).
Definition text_section : osec := mkOsec (mkShdr 1 1 6 0 0 0 0 0 4 0) (chars ".text") (Plain [0; 0; 0; 12; 4; 0; 130; 140]).
Definition text_relocations : osec := mkOsec (mkShdr 7 9 0 0 0 0 6 1 4 8) (chars ".rel.text") (Relocations [mkRel 0 4 2 0; mkRel 4 6 3 0]).
Definition ctors_section : osec := mkOsec (mkShdr 17 1 3 0 0 0 0 0 4 0) (chars ".ctors") (Plain [0; 0; 0; 0]).
Definition ctors_relocations : osec := mkOsec (mkShdr 24 4 0 0 0 0 6 3 4 12) (chars ".rela.ctors") (Relocations [mkRel 0 2 1 (-4)]).
Definition bss_section : osec := mkOsec (mkShdr 36 8 3 0 0 32 0 0 8 0) (chars ".bss") (Plain []).
Definition symbol_section : osec :=
  mkOsec (mkShdr 41 2 0 0 0 0 7 1 4 16) (chars ".symtab")
    (Symbols [mkOsym [] 0 0 0 0 0 0 0; mkOsym (chars "Main") 1 0 8 1 2 0 1; mkOsym (chars "printf") 6 0 0 1 0 0 0; mkOsym (chars "buffer") 13 0 32 0 1 0 5]).
Definition string_section : osec := mkOsec (mkShdr 49 3 0 0 0 0 0 0 1 0) (chars ".strtab") (Plain table_of_symbols).
Definition name_section : osec := mkOsec (mkShdr 57 3 0 0 0 0 0 0 1 0) (chars ".shstrtab") (Plain table_of_sections).

Definition sample_sections (big : bool) : list osec :=
  place 52 big [null_section; text_section; text_relocations; ctors_section; ctors_relocations; bss_section; symbol_section; string_section; name_section].
Definition sample_header (big : bool) : ehdr := header big 1 8 (sample_sections big) 8.
Definition sample_object (big : bool) : list Z := build big (sample_header big) (sample_sections big).
Lemma sample_file big : file_of big (sample_object big) (sample_header big) (sample_sections big).
Proof. apply fileb_file. destruct big; vm_compute; reflexivity. Qed.

Lemma sample_each big : one_each (sample_sections big).
Proof. split; [destruct big; repeat (apply Forall_cons; [vm_compute; trivial |]); apply Forall_nil |]. destruct big; repeat (apply FOP_cons; [repeat (apply Forall_cons; [vm_compute; trivial; try discriminate |]); apply Forall_nil |]); apply FOP_nil. Qed.
Lemma sample_table big : one_table 8 (sample_sections big).
Proof.
  split; [destruct big; repeat (apply FOP_cons; [repeat (apply Forall_cons; [vm_compute; trivial |]); apply Forall_nil |]); apply FOP_nil |].
  intros t ys i u T E N S.
  assert (L : sh_link (os_hdr t) = 7) by (destruct big; repeat (destruct T as [<- | T]; [try discriminate E; try reflexivity |]); destruct T). rewrite L. clear T E L.
  do 9 (destruct i as [| i]; [destruct big; injection N as <-; try discriminate S; (left; reflexivity) || (right; reflexivity) |]). destruct big, i; discriminate N.
Qed.

(** The names of the symbols are not in the last table of strings. *)
Definition other_strings : list Z := zero ++ chars "wrong" ++ zero ++ chars "x" ++ zero ++ repeat 0 20.
Definition debug_section : osec := mkOsec (mkShdr 49 3 0 0 0 0 0 0 1 0) (chars ".strtab") (Plain other_strings).
Definition debug_sections : list osec :=
  place 52 false [null_section; text_section; text_relocations; ctors_section; ctors_relocations; bss_section; symbol_section; string_section; name_section; debug_section].
Definition debug_header : ehdr := header false 1 8 debug_sections 8.
Definition debug_object : list Z := build false debug_header debug_sections.
Lemma debug_file : file_of false debug_object debug_header debug_sections.
Proof. apply fileb_file. vm_compute. reflexivity. Qed.
(** Two sections with relocations for one section. *)
Definition twice_sections : list osec :=
  place 52 false [null_section; text_section; text_relocations; ctors_section; ctors_relocations; bss_section; symbol_section; string_section; name_section;
    mkOsec (mkShdr 24 4 0 0 0 0 6 1 4 12) (chars ".rela.ctors") (Relocations [mkRel 4 5 1 0])].
Definition twice_header : ehdr := header false 1 8 twice_sections 8.
Definition twice_object : list Z := build false twice_header twice_sections.
Lemma twice_file : file_of false twice_object twice_header twice_sections.
Proof. apply fileb_file. vm_compute. reflexivity. Qed.

(** ** Archives *)

Definition member_of (name : string) (d : list Z) : amember := mkAmember (chars name) (repeat 48 32) [96; 10] d.
Definition sample_members : list amember :=
  [member_of "first.o" (sample_object false); member_of "readme.txt" (chars "hello"); member_of "second.o" debug_object; member_of "again.o" (sample_object false ++ [0])].
Lemma member_fine name d : (List.length (chars name) < 15)%nat -> forallb (fun c => negb (c =? 0) && negb (c =? 32)) (chars name) = true -> 4 <= size d < 2147483648 -> fine_amember (member_of name d).
Proof. intros L F S. split; [exact L |]. split; [revert F; apply all_of; intros c C; lia |]. split; [reflexivity |]. split; [reflexivity | exact S]. Qed.
Lemma sample_members_fine : Forall fine_amember sample_members.
Proof. repeat (apply Forall_cons; [apply member_fine; [vm_compute; lia | reflexivity | vm_compute; split; [discriminate | reflexivity]] |]). apply Forall_nil. Qed.
