(** Property theorems: C17 (memory address and file address), C18 (exact writes). *)

Require Import ZArith List Bool Lia.
From Verif Require Import Ints Res BytesSpec FileModel FileSpec FileProofs.
Import ListNotations.
Local Open Scope Z_scope.

(** After any history the header size, the file address and the memory address are the ones the
    history determines; the file address is never negative and is where the next byte goes. *)
Theorem C17_addresses : forall writable own_big files d m h,
  Forall fresh files -> file_history writable own_big files d m h ->
  match where_to (header_of files) h with
  | None => get_virtual m = -1 /\ get_physical m = -1 /\ get_header m = -1
  | Some c =>
      get_header m = cu_header c /\ get_physical m = cu_phys c /\ get_virtual m = cu_phys c + cu_header c /\ 0 <= cu_phys c /\
      exists g, nth_error (f_files m) (cu_file c) = Some g /\ g_open g = cu_real c /\ (cu_real c = true -> g_pos g = cu_phys c)
  end.
Proof. exact addresses. Qed.

(** Seeking succeeds exactly when a file is open and the file address is not negative. *)
Theorem C17_seek_answer : forall writable own_big files d m h,
  Forall fresh files -> file_history writable own_big files d m h ->
  (forall a m' ok, file_step writable own_big m (FSeek a) = ROk (m', ok) ->
     ok = match where_to (header_of files) h with None => false | Some c => 0 <=? a - cu_header c end) /\
  (forall a m' ok, file_step writable own_big m (FSeekPhysical a) = ROk (m', ok) ->
     ok = match where_to (header_of files) h with None => false | Some c => 0 <=? a end).
Proof.
  intros writable own_big files d m h F H. split; intros a m' ok E.
  - exact (seek_answer writable own_big files d m h F H a m' ok E).
  - exact (seek_physical_answer writable own_big files d m h F H a m' ok E).
Qed.

(** A rejected operation changes nothing but the queue of errors. *)
Theorem C17_rejected : forall writable own_big files d m h o m',
  Forall fresh files -> file_history writable own_big files d m h ->
  (forall i c, o <> FOpen i c) -> (forall h, o <> FHeader h) ->
  file_step writable own_big m o = ROk (m', false) ->
  m' = mkMgr (f_files m) (f_active m) (f_big m) (f_disk m) true (f_printed m).
Proof. exact rejected_history. Qed.

(** [.headersize] while no file is open uses the null pointer. *)
Theorem C17_header_without_file_refuted : forall files d hd,
  file_history (fun _ => true) false files d (new_manager files d) [] /\
  file_step (fun _ => true) false (new_manager files d) (FHeader hd) = RUb.
Proof. intros files d hd. split; [constructor|reflexivity]. Qed.

(** Writing a unit changes exactly its bytes. *)
Theorem C18_write : forall writable own_big files d m h n v m',
  Forall fresh files -> file_history writable own_big files d m h ->
  (n = 1 \/ n = 2 \/ n = 4 \/ n = 8)%nat -> file_step writable own_big m (FWriteUnit n v) = ROk (m', true) ->
  exists c, where_to (header_of files) h = Some c /\
  let p := Z.to_nat (get_physical m) in
  let old := match f_disk m (name_of files (cu_file c)) with Some c => c | None => [] end in
  exists new, f_disk m' (name_of files (cu_file c)) = Some new /\
    List.length new = Nat.max (List.length old) (p + n) /\
    (forall i, (p <= i < p + n)%nat -> byte_at new i = nth (i - p) (encode_bytes (big_endian h) n v) 0) /\
    (forall i, (i < p \/ p + n <= i)%nat -> byte_at new i = byte_at old i) /\
    (forall other, other <> name_of files (cu_file c) -> f_disk m' other = f_disk m other) /\
    get_physical m' = get_physical m + Z.of_nat n /\ get_virtual m' = get_virtual m + Z.of_nat n.
Proof.
  intros writable own_big files d m h n v m' F H Hn E.
  apply (write_effect writable own_big files d m h n v m' F H Hn). destruct Hn as [-> | [-> | [-> | ->] ] ]; exact E.
Qed.

(** The write is accepted whenever a file is open for output, and changes no file otherwise. *)
Theorem C18_accepted : forall writable own_big files d m h n v c,
  Forall fresh files -> file_history writable own_big files d m h ->
  (n = 1 \/ n = 2 \/ n = 4 \/ n = 8)%nat -> where_to (header_of files) h = Some c -> cu_real c = true ->
  is_int64 (get_virtual m) -> is_int64 (get_virtual m + 8) ->
  exists m', file_step writable own_big m (FWriteUnit n v) = ROk (m', true).
Proof.
  intros writable own_big files d m h n v c F H Hn Ec Er B0 B.
  destruct (write_accepted writable own_big files d m h n v c F H Hn Ec Er B0 B) as [m' E].
  exists m'. destruct Hn as [-> | [-> | [-> | ->] ] ]; exact E.
Qed.
Theorem C18_rejected : forall writable own_big m n v m',
  (n = 1 \/ n = 2 \/ n = 4 \/ n = 8)%nat -> file_step writable own_big m (FWriteUnit n v) = ROk (m', false) ->
  f_disk m' = f_disk m.
Proof.
  intros writable own_big m n v m' Hn E. apply (write_rejected own_big m n v m' Hn).
  destruct Hn as [-> | [-> | [-> | ->] ] ]; exact E.
Qed.

(** Cases: two files, a header, writes in both byte orders with a gap before them. *)
Definition ex_files : list gfile := [new_file 3 0 MOpen 0x8000; new_file 4 0 MCreate 0].
Definition ex_disk : disk := disk_set (disk_set (fun _ => None) 3 [1; 2; 3; 4; 5]) 9 [7].
Fixpoint run (m : fmgr) (l : list file_op) : option (fmgr * list (file_op * bool)) :=
  match l with
  | [] => Some (m, [])
  | o :: l => match run m l with
              | Some (m, h) => match file_step (fun _ => true) false m o with ROk (m', ok) => Some (m', (o, ok) :: h) | _ => None end
              | None => None end
  end.
Definition ex_ops : list file_op :=
  [FWriteUnit 8 0x1122334455667788; FAdvance 2; FHeader 0x100; FSeek 0x7FFF; FWriteUnit 4 (-2); FEndian true; FWriteUnit 2 0xABCD; FSeek 0x8001; FOpen 0 false].
Example C17_ex : exists m h, run (new_manager ex_files ex_disk) ex_ops = Some (m, h) /\
  get_physical m = 17 /\ get_virtual m = 0x111 /\ get_header m = 0x100 /\
  f_disk m 3%nat = Some [1; 0xCD; 0xAB; 0xFF; 0xFF; 0xFF; 0xFE; 0; 0; 0x11; 0x22; 0x33; 0x44; 0x55; 0x66; 0x77; 0x88].
Proof. eexists. eexists. split; [vm_compute; reflexivity|]. vm_compute. auto. Qed.
Example C18_ex : exists m h, file_history (fun _ => true) false ex_files ex_disk m h /\ Forall fresh ex_files /\
  where_to (header_of ex_files) h = Some (mkCursor 0 0x8000 1 true) /\
  exists m', file_step (fun _ => true) false m (FWriteUnit 2 0xABCD) = ROk (m', true) /\ f_disk m' 3%nat = Some [1; 0xCD; 0xAB; 4; 5].
Proof.
  eexists. exists [(FSeek 0x8001, true); (FOpen 0 false, true)].
  split; [|split; [|split]].
  - eapply fh_step; [eapply fh_step; [apply fh_nil| |]| |].
    + cbn. lia.
    + vm_compute. reflexivity.
    + exact Logic.I.
    + vm_compute. reflexivity.
  - repeat constructor; do 4 eexists; reflexivity.
  - reflexivity.
  - eexists. split; vm_compute; reflexivity.
Qed.

Print Assumptions C17_addresses.
Print Assumptions C17_seek_answer.
Print Assumptions C17_rejected.
Print Assumptions C17_header_without_file_refuted.
Print Assumptions C18_write.
Print Assumptions C18_accepted.
Print Assumptions C18_rejected.
