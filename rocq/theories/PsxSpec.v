(** What a PlayStation object file is: a sequence of records, how they are written, and what they say.

    The contents of a file ([pfile] and its parts) are from [PsxModel], the bytes of numbers from [BytesSpec]. *)

Require Import ZArith Bool List.
Require Import Verif.Ints Verif.BytesSpec Verif.PsxModel.
Import ListNotations.
Local Open Scope Z_scope.

(** ** Records *)

(** What is added to the address that a relocation is for. *)
Inductive displacement := Nothing | Plus (v : Z) | Minus (v : Z).
(** A symbol, or a position in a segment. *)
Inductive place := AtSymbol (id : Z) | AtSegment (id pos : Z).

Inductive record :=
| Segment (id : Z) (name : list Z)
| Group (header name : list Z)
| Source (header name : list Z)
| Select (id : Z)
| Data (bytes : list Z)
| Zeroes (n : Z)
| Reloc (t : rtype) (offset : Z) (by_ : displacement) (to : place)
| Defined (segment offset : Z) (name : list Z)
| DefinedId (id segment offset : Z) (name : list Z)
| Extern (id : Z) (name : list Z)
| Area (id segment room : Z) (name : list Z)
| Routine (segment offset : Z) (lines name : list Z)
| RoutineEnd (rest : list Z)
| Note3C (rest : list Z)
| Note32 (rest : list Z)
| Note3A (rest : list Z)
| Nop.

(** ** Writing *)

Definition u16b (v : Z) : list Z := le_bytes 2 v.
Definition u32b (v : Z) : list Z := le_bytes 4 v.
Definition text (name : list Z) : list Z := Z.of_nat (length name) :: name.
Definition type_byte (t : rtype) : Z :=
  match t with WordLiteral => 0x10 | FunctionCall => 0x4A | UpperImmediate => 0x52 | LowerImmediate => 0x54 end.
Definition displacement_bytes (x : displacement) : list Z :=
  match x with Nothing => [] | Plus v => [0x2C; 0] ++ u32b v | Minus v => [0x2E; 0] ++ u32b v end.
Definition place_bytes (x : place) : list Z :=
  match x with AtSymbol id => 0x02 :: u16b id | AtSegment id pos => [0x2C; 4] ++ u16b id ++ 0 :: u32b pos end.
Definition write (r : record) : list Z :=
  match r with
  | Segment id name => 0x10 :: u32b id ++ 8 :: text name
  | Group h name => 0x14 :: h ++ text name
  | Source h name => 0x1C :: h ++ text name
  | Select id => 0x06 :: u16b id
  | Data l => 0x02 :: u16b (Z.of_nat (length l)) ++ l
  | Zeroes n => 0x08 :: u16b n
  | Reloc t o x to => 0x0A :: type_byte t :: u16b o ++ displacement_bytes x ++ place_bytes to
  | Defined seg o name => 0x12 :: u16b seg ++ u32b o ++ text name
  | DefinedId id seg o name => 0x0C :: u16b id ++ u16b seg ++ u32b o ++ text name
  | Extern id name => 0x0E :: u16b id ++ text name
  | Area id seg sz name => 0x30 :: u16b id ++ u16b seg ++ u32b sz ++ text name
  | Routine seg o lines name => 0x4A :: u16b seg ++ u32b o ++ lines ++ text name
  | RoutineEnd l => 0x4C :: l
  | Note3C l => 0x3C :: l
  | Note32 l => 0x32 :: l
  | Note3A l => 0x3A :: l
  | Nop => [0]
  end.
Definition write_object (rs : list record) : list Z := [76; 78; 75; 2; 46; 7] ++ flat_map write rs.

(** The first bytes of the records. *)
Definition known_tags : list Z := [0x10; 0x14; 0x1C; 0x06; 0x02; 0x08; 0x0A; 0x12; 0x0C; 0x0E; 0x30; 0x4A; 0x4C; 0x3C; 0x32; 0x3A; 0x00].

(** The numbers fit into their fields. *)
Definition is_u16 (v : Z) : Prop := 0 <= v < 65536.
Definition fine_text (name : list Z) : Prop := (length name < 256)%nat.
Definition fine_displacement (x : displacement) : Prop :=
  match x with Nothing => True | Plus v => is_int32 v | Minus v => is_int32 v /\ v <> -2147483648 end.
Definition fine_place (x : place) : Prop :=
  match x with AtSymbol id => is_u16 id | AtSegment id pos => is_u16 id /\ is_int32 pos end.
Definition fine (r : record) : Prop :=
  match r with
  | Segment id name => is_u16 id /\ fine_text name
  | Group h name => length h = 3%nat /\ fine_text name
  | Source h name => length h = 2%nat /\ fine_text name
  | Select id => is_u16 id
  | Data l => Z.of_nat (length l) < 65536
  | Zeroes n => is_u16 n
  | Reloc t o x to => is_u16 o /\ fine_displacement x /\ fine_place to
  | Defined seg o name => is_u16 seg /\ is_int32 o /\ fine_text name
  | DefinedId id seg o name => is_u16 id /\ is_u16 seg /\ is_int32 o /\ fine_text name
  | Extern id name => is_u16 id /\ fine_text name
  | Area id seg sz name => is_u16 id /\ is_u16 seg /\ is_int32 sz /\ fine_text name
  | Routine seg o lines name => is_u16 seg /\ is_int32 o /\ length lines = 22%nat /\ fine_text name
  | RoutineEnd l => length l = 10%nat
  | Note3C l => length l = 2%nat
  | Note32 l => length l = 2%nat
  | Note3A l => length l = 8%nat
  | Nop => True
  end.

(** A segment is declared once, and before it is selected; data goes to the segment selected last, and a
    relocation is for the piece of data that was given last since then. *)
Fixpoint ordered (known : list Z) (current : option Z) (piece : bool) (rs : list record) : Prop :=
  match rs with
  | [] => True
  | Segment id _ :: rs => ~ In id known /\ ordered (known ++ [id]) current piece rs
  | Select id :: rs => In id known /\ ordered known (Some id) false rs
  | Data _ :: rs => current <> None /\ ordered known current true rs
  | Zeroes _ :: rs => current <> None /\ ordered known current piece rs
  | Reloc _ _ _ _ :: rs => piece = true /\ ordered known current piece rs
  | _ :: rs => ordered known current piece rs
  end.

(** ** Meaning *)

(** The records that are for a segment. *)
Fixpoint records_for (id : Z) (selected : bool) (rs : list record) : list record :=
  match rs with
  | [] => []
  | Select i :: rs => records_for id (i =? id) rs
  | r :: rs => if selected then r :: records_for id selected rs else records_for id selected rs
  end.
Definition bytes_of (r : record) : list Z :=
  match r with Data l => l | Zeroes n => repeat 0 (Z.to_nat n) | _ => [] end.
Definition displacement_value (x : displacement) : Z := match x with Nothing => 0 | Plus v => v | Minus v => - v end.
Definition relocation_at (start : Z) (t : rtype) (o : Z) (x : displacement) (to : place) : prel :=
  match to with
  | AtSymbol id => mkPrel t SymblId (start + o) id 0 (displacement_value x)
  | AtSegment id pos => mkPrel t SegmentOffset (start + o) id pos (displacement_value x)
  end.
(** The relocations, where [len] bytes are there and the last piece of data begins at [start]. *)
Fixpoint relocations_of (len start : Z) (rs : list record) : list prel :=
  match rs with
  | [] => []
  | Data l :: rs => relocations_of (len + Z.of_nat (length l)) len rs
  | Zeroes n :: rs => relocations_of (len + n) start rs
  | Reloc t o x to :: rs => relocation_at start t o x to :: relocations_of len start rs
  | _ :: rs => relocations_of len start rs
  end.
Definition segment_of (rs : list record) (id : Z) : pseg :=
  let own := records_for id false rs in mkPseg id (flat_map bytes_of own) (relocations_of 0 0 own).
Definition declared (r : record) : list Z := match r with Segment id _ => [id] | _ => [] end.
Definition symbol_of (r : record) : list psym :=
  match r with
  | Defined seg o name => [mkPsym (Internal seg o) name]
  | DefinedId id seg o name => [mkPsym (InternalID id seg o) name]
  | Extern id name => [mkPsym (External id) name]
  | Area id _ sz name => [mkPsym (BSS id sz) name]
  | Routine seg o _ name => [mkPsym (Function_ seg o) name]
  | _ => []
  end.
Definition contents (rs : list record) : pfile :=
  mkPfile (map (segment_of rs) (flat_map declared rs)) (flat_map symbol_of rs).

(** ** Libraries *)

Record member := mkMember { mb_name : list Z; mb_symbols : list (list Z); mb_data : list Z }.
Definition member_names (m : member) : list Z := flat_map text (mb_symbols m) ++ [0].
Definition write_member (m : member) : list Z :=
  mb_name m ++ repeat 32 (16 - length (mb_name m))
  ++ u32b (20 + Z.of_nat (length (member_names m)) + Z.of_nat (length (mb_data m)))
  ++ member_names m ++ mb_data m.
Definition write_library (ms : list member) : list Z := [76; 73; 66; 1] ++ flat_map write_member ms.
Definition fine_member (m : member) : Prop :=
  (length (mb_name m) <= 16)%nat /\ ~ In 32 (mb_name m) /\
  Forall (fun s => (0 < length s < 256)%nat) (mb_symbols m) /\
  20 + Z.of_nat (length (member_names m)) + Z.of_nat (length (mb_data m)) < 2147483648.
