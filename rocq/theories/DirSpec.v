(** What the manual says about the directives of one line: the forms of the parameters and the
    command each form stands for. *)

Require Import ZArith String Ascii List Bool.
From Verif Require Import ExprModel LexModel SymModel DataModel DirModel.
Import ListNotations.
Local Open Scope string_scope.
Local Open Scope list_scope.

(** The size of a word in bytes: 32 bits for MIPS and ARM, 16 for SuperH. *)
Definition manual_word (c : cpu) : nat := match c with CInvalid | CMips | CArm => 4 | CSuperH => 2 end.

(** Integers of 1, 2, 4 or 8 bytes *)
Inductive ints : nat -> dmode -> Prop :=
| i_8 : ints 1 DU8 | i_16 : ints 2 DU16 | i_32 : ints 4 DU32 | i_64 : ints 8 DU64.

(** The directives that write integers, and how many bytes each takes *)
Inductive unit_bytes (c : cpu) (nocash : bool) : string -> nat -> Prop :=
| u_byte : forall n, In n [".byte"; ".db"; ".dcb"; ".d8"; "db"; "dcb"] -> unit_bytes c nocash n 1
| u_16 : unit_bytes c nocash ".d16" 2
| u_32 : unit_bytes c nocash ".d32" 4
| u_64 : unit_bytes c nocash ".d64" 8
| u_half : forall n h, In n [".halfword"; ".hword"; ".dcw"; "dcw"] \/ nocash = false /\ In n [".dh"; "dh"] ->
    (h + h = manual_word c)%nat -> unit_bytes c nocash n h
| u_word : forall n, In n [".word"; ".dcd"; "dcd"] \/ nocash = false /\ In n [".dw"; "dw"] ->
    unit_bytes c nocash n (manual_word c)
| u_double : forall n, In n [".doubleword"; ".dword"; ".dcq"; "dcq"] \/ nocash = false /\ In n [".dd"; "dd"] ->
    unit_bytes c nocash n (manual_word c + manual_word c)
| u_nocash_16 : forall n, nocash = true -> In n [".dw"; "dw"] -> unit_bytes c nocash n 2
| u_nocash_32 : forall n, nocash = true -> In n [".dd"; "dd"] -> unit_bytes c nocash n 4.

(** All the data directives: how the values are written, whether the end is marked *)
Inductive data_directive (c : cpu) (nocash : bool) : string -> dmode -> bool -> Prop :=
| dd_ints : forall n k m, unit_bytes c nocash n k -> ints k m -> data_directive c nocash n m false
| dd_float : data_directive c nocash ".float" DFloat false
| dd_double : data_directive c nocash ".double" DDouble false
| dd_ascii : data_directive c nocash ".ascii" DAscii false
| dd_asciiz : data_directive c nocash ".asciiz" DAscii true
| dd_string : forall n, In n [".string"; ".str"] -> data_directive c nocash n DCustom true
| dd_stringn : forall n, In n [".stringn"; ".strn"] -> data_directive c nocash n DCustom false
| dd_sjis : data_directive c nocash ".sjis" DSjis true
| dd_sjisn : data_directive c nocash ".sjisn" DSjis false.

(** A parameter that is there *)
Definition readable (a : arg) : Prop := a <> PBad.
(** A text; a text or a number in its place; a number *)
Definition literal (a : arg) (s : string) : Prop := value_now a = VStr s.
Definition spelled (text_of : value -> string) (a : arg) (s : string) : Prop :=
  value_now a = VStr s \/ (exists z, value_now a = VInt z /\ s = text_of (VInt z)) \/
  (exists f, value_now a = VFloat f /\ s = text_of (VFloat f)).
Definition number (a : arg) (z : Z) : Prop := value_now a = VInt z.

(** The encodings that can be named *)
Definition encoding_names : list (string * encoding) :=
  [("sjis", EncSjis); ("shift-jis", EncSjis); ("utf8", EncUtf8); ("utf-8", EncUtf8); ("utf16", EncUtf16Le); ("utf-16", EncUtf16Le);
   ("utf16-be", EncUtf16Be); ("utf-16-be", EncUtf16Be); ("ascii", EncAscii)].
Definition names_encoding (s : string) (e : encoding) : Prop := In (lower_string s, e) encoding_names.
(** An encoding parameter that may be left out *)
Definition encoded (text_of : value -> string) (r : list arg) (e : encoding) : Prop :=
  (r = [] /\ e = EncGuess) \/ exists a s, r = [a] /\ spelled text_of a s /\ names_encoding s e.

(** on or off, as a word or a string *)
Definition onoff (b : bool) : string := if b then "on" else "off".
Inductive says_onoff : arg -> bool -> Prop :=
| so_word : forall b v, says_onoff (PIdent (onoff b) v) b
| so_string : forall s b, lower_string s = onoff b -> says_onoff (PString s) b.

(** A parameter that may be left out *)
Inductive optional : list arg -> option arg -> Prop :=
| op_none : optional [] None
| op_some : forall a, readable a -> optional [a] (Some a).

Section Manual.
  Variable text_of : value -> string.
  Variable c : cpu.
  Variables nocash memory : bool.

  (** The forms.  When assembling into memory there are no files to open. *)
  Inductive says : string -> list arg -> dcmd -> Prop :=
  | s_open : forall n a b f z, memory = false -> In n [".open"; ".openfile"] -> literal a f -> number b z -> says n [a; b] (DOpen f None z)
  | s_copy : forall n a b d f g z, memory = false -> In n [".open"; ".openfile"] -> literal a f -> literal b g -> number d z ->
      says n [a; b; d] (DOpen f (Some g) z)
  | s_create : forall n a b f z, memory = false -> In n [".create"; ".createfile"] -> literal a f -> number b z -> says n [a; b] (DCreate f z)
  | s_close : forall n, memory = false -> In n [".close"; ".closefile"] -> says n [] DClose
  | s_incbin : forall n a f r p, In n [".incbin"; ".import"] -> literal a f -> optional r p -> says n (a :: r) (DIncbin f p None)
  | s_incbin_size : forall n a f p q, In n [".incbin"; ".import"] -> literal a f -> readable p -> readable q -> says n [a; p; q] (DIncbin f (Some p) (Some q))
  | s_org : forall n a, In n [".org"; "org"] -> readable a -> says n [a] (DPosition false a)
  | s_orga : forall n a, In n [".orga"; "orga"] -> readable a -> says n [a] (DPosition true a)
  | s_header : forall a, readable a -> says ".headersize" [a] (DHeaderSize a)
  | s_align_4 : says ".align" [] (DAlignFill AVirtual None None)
  | s_align : forall a r v, readable a -> optional r v -> says ".align" (a :: r) (DAlignFill AVirtual (Some a) v)
  | s_aligna_4 : says ".aligna" [] (DAlignFill APhysical None None)
  | s_aligna : forall a r v, readable a -> optional r v -> says ".aligna" (a :: r) (DAlignFill APhysical (Some a) v)
  | s_fill : forall n a r v, In n [".fill"; "defs"] -> readable a -> optional r v -> says n (a :: r) (DAlignFill AFill (Some a) v)
  | s_skip : forall a, readable a -> says ".skip" [a] (DSkip a)
  | s_table : forall n a f r e, In n [".loadtable"; ".table"] -> spelled text_of a f -> encoded text_of r e -> says n (a :: r) (DTable f e)
  | s_include : forall a f r e, spelled text_of a f -> encoded text_of r e -> says ".include" (a :: r) (DInclude f e)
  | s_data : forall n m t a r, data_directive c nocash n m t -> Forall readable (a :: r) -> says n (a :: r) (DData m t (a :: r))
  | s_arch : forall n m, In (n, m) [(".psx", MPsx); (".ps2", MPs2); (".psp", MPsp); (".n64", MN64); (".rsp", MRsp); (".nds", MNds); (".3ds", M3ds);
      (".arm.big", MArmBig); (".arm.little", MArmLittle); (".saturn", MSaturn); (".32x", MSaturn)] -> says n [] (DArch m false)
  | s_gba : says ".gba" [] (DArch MGba true)
  | s_area : forall a r v, readable a -> optional r v -> says ".area" (a :: r) (DArea false None a v)
  | s_region : forall a r v, readable a -> optional r v -> says ".region" (a :: r) (DArea true None a v)
  | s_defineregion : forall p a r v, readable p -> readable a -> optional r v -> says ".defineregion" (p :: a :: r) (DArea true (Some p) a v)
  | s_autoregion : forall r a, optional r a -> says ".autoregion" r (DAutoRegion a None)
  | s_autoregion_range : forall a b, readable a -> readable b -> says ".autoregion" [a; b] (DAutoRegion (Some a) (Some b))
  | s_obj : forall n a f, In n [".importobj"; ".importlib"] -> spelled text_of a f -> says n [a] (DObjImport f None)
  | s_obj_ctor : forall n a f m v, In n [".importobj"; ".importlib"] -> spelled text_of a f -> says n [a; PIdent m v] (DObjImport f (Some m))
  | s_switch : forall n s a b, In (n, s) [(".erroronwarning", SErrorOnWarning); (".relativeinclude", SRelativeInclude); (".nocash", SNocash); (".sym", SSym)] ->
      says_onoff a b -> says n [a] (DSwitch s b)
  | s_label : forall n v a, valid_name n = true -> readable a -> says ".definelabel" [PIdent n v; a] (DLabel n a None)
  | s_datalabel : forall n v a, valid_name n = true -> readable a -> says ".definedatalabel" [PIdent n v; a] (DLabel n a (Some false))
  | s_message : forall n l a, In (n, l) [(".warning", LWarning); (".error", LError); (".notice", LNotice)] -> says n [a] (DMessage l a)
  | s_message_none : forall n l, In (n, l) [(".warning", LWarning); (".error", LError); (".notice", LNotice)] -> says n [] (DMessage l PBad).
End Manual.

(** The directives that name an encoding, and lines in which that is one of the list *)
Definition good_encoding (text_of : value -> string) (name : string) (args : list arg) : Prop :=
  In name [".loadtable"; ".table"; ".include"] -> forall a b s, args = [a; b] -> spelled text_of b s -> exists e, names_encoding s e.
(** The directives read elsewhere *)
Definition other_directive (c : cpu) (name : string) : Prop :=
  In name ([".if"; ".ifdef"; ".ifndef"; ".func"; ".function"] ++ arch_names c).
(** The directives that there are *)
Definition known_directive (text_of : value -> string) (c : cpu) (nocash memory : bool) (name : string) : Prop :=
  exists args cmd, says text_of c nocash memory name args cmd.
