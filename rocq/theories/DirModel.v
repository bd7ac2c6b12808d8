(** Model of the directive table and of the directives that take one line of parameters:
    Parser::parseDirective and parseExpressionList, Parser/Parser.cpp 53-99 and 221-263, and
    Parser/DirectivesParser.{h,cpp}.

    The parameters of a line are given after the expression parser has read them, each with the value
    it has at that moment; an expression of several tokens never counts as a single name or string.
    The bodies of .area, .region and .autoregion are left out: the end of the line is then the end of
    the line that closes the body.  Conditionals and .func are not read here (CondModel), nor are the
    directives of the architectures.  The file of .include is not opened here.  The effect of a switch
    or of an architecture directive on the parser is part of the command.  No directive of the table
    has the flag DIRECTIVE_MIPSRESETDELAY. *)

Require Import ZArith String Ascii List Bool.
From Verif Require Import Ints ExprModel LexModel SymModel DataModel.
Import ListNotations.
Local Open Scope string_scope.
Local Open Scope list_scope.
Local Open Scope Z_scope.

(** A parameter: nothing that can be read, a single name, a single string, any other expression *)
Inductive arg := PBad | PIdent (name : string) (now : value) | PString (s : string) | PExpr (now : value).
(** Expression::evaluate at this moment, Core/Expression.h 183 *)
Definition value_now (a : arg) : value :=
  match a with PBad => VInvalid | PIdent _ v => v | PString s => VStr s | PExpr v => v end.
(** isLoaded, Expression.h 184 *)
Definition loaded (a : arg) : bool := match a with PBad => false | _ => true end.
(** The rest of the line: the parameters between the commas, and whether the line ends after them *)
Record line := mkLine { l_args : list arg; l_closed : bool }.

(** The messages, Parser.cpp 66, 80, 88, 94, 251, 255, DirectivesParser.cpp 331, 341, 638 *)
Inductive derr := EParameter | EFew (min : nat) | EMany (max : nat) | EFileName | EEncoding | ELabelName
                | EDirective | EUnterminated.

(** The flags, DirectivesParser.h 20-28 *)
Definition USERMASK : Z := 0xFFFF.
Definition NOCASHON : Z := 0x10000.
Definition NOCASHOFF : Z := 0x20000.
Definition DISABLED : Z := 0x80000.
Definition NOTINMEMORY : Z := 0x100000.
Definition MANUALSEPARATOR : Z := 0x200000.
(** DIRECTIVE_DATA_*, DirectivesParser.h 43-55 *)
Definition DATA_8 : Z := 1.
Definition DATA_16 : Z := 2.
Definition DATA_32 : Z := 3.
Definition DATA_64 : Z := 4.
Definition DATA_ASCII : Z := 5.
Definition DATA_SJIS : Z := 6.
Definition DATA_CUSTOM : Z := 7.
Definition DATA_FLOAT : Z := 8.
Definition DATA_DOUBLE : Z := 9.
Definition DATA_HWORD : Z := 10.
Definition DATA_WORD : Z := 11.
Definition DATA_DWORD : Z := 12.
Definition DATA_TERMINATION : Z := 0x100.

(** The functions of the table, DirectivesParser.cpp 26-748 *)
Inductive handler :=
| HOpen | HCreate | HClose | HIncbin | HPosition | HAlignFill | HSkip | HHeaderSize | HObjImport | HConditional
| HTable | HData | HMipsArch | HArmArch | HShArch | HArea | HDefineArea | HAutoRegion | HErrorWarning
| HRelativeInclude | HNocash | HSym | HDefineLabel | HDefineDataLabel | HFunction | HMessage | HInclude.
(** DirectiveEntry with its key, DirectivesParser.h 13-18 *)
Record dentry := mkDir { d_name : string; d_handler : handler; d_flags : Z }.

(** The table, DirectivesParser.cpp 750-856 *)
Definition directives : list dentry := [
  mkDir ".open" HOpen NOTINMEMORY; mkDir ".openfile" HOpen NOTINMEMORY;
  mkDir ".create" HCreate NOTINMEMORY; mkDir ".createfile" HCreate NOTINMEMORY;
  mkDir ".close" HClose NOTINMEMORY; mkDir ".closefile" HClose NOTINMEMORY;
  mkDir ".incbin" HIncbin 0; mkDir ".import" HIncbin 0;
  mkDir ".org" HPosition 2; mkDir "org" HPosition 2;
  mkDir ".orga" HPosition 1; mkDir "orga" HPosition 1;
  mkDir ".headersize" HHeaderSize 0;
  mkDir ".align" HAlignFill 2; mkDir ".aligna" HAlignFill 1;
  mkDir ".fill" HAlignFill 4; mkDir "defs" HAlignFill 4;
  mkDir ".skip" HSkip 0;
  mkDir ".if" HConditional 1; mkDir ".ifdef" HConditional 2; mkDir ".ifndef" HConditional 3;
  mkDir ".loadtable" HTable 0; mkDir ".table" HTable 0;
  mkDir ".byte" HData DATA_8;
  mkDir ".halfword" HData DATA_HWORD; mkDir ".hword" HData DATA_HWORD;
  mkDir ".word" HData DATA_WORD;
  mkDir ".doubleword" HData DATA_DWORD; mkDir ".dword" HData DATA_DWORD;
  mkDir ".db" HData DATA_8;
  mkDir ".dh" HData (DATA_HWORD + NOCASHOFF);
  mkDir ".dw" HData (DATA_WORD + NOCASHOFF);
  mkDir ".dd" HData (DATA_DWORD + NOCASHOFF);
  mkDir ".dw" HData (DATA_16 + NOCASHON);
  mkDir ".dd" HData (DATA_32 + NOCASHON);
  mkDir ".dcb" HData DATA_8; mkDir ".dcw" HData DATA_HWORD; mkDir ".dcd" HData DATA_WORD; mkDir ".dcq" HData DATA_DWORD;
  mkDir "db" HData DATA_8;
  mkDir "dh" HData (DATA_HWORD + NOCASHOFF);
  mkDir "dw" HData (DATA_WORD + NOCASHOFF);
  mkDir "dd" HData (DATA_DWORD + NOCASHOFF);
  mkDir "dw" HData (DATA_16 + NOCASHON);
  mkDir "dd" HData (DATA_32 + NOCASHON);
  mkDir "dcb" HData DATA_8; mkDir "dcw" HData DATA_HWORD; mkDir "dcd" HData DATA_WORD; mkDir "dcq" HData DATA_DWORD;
  mkDir ".d8" HData DATA_8; mkDir ".d16" HData DATA_16; mkDir ".d32" HData DATA_32; mkDir ".d64" HData DATA_64;
  mkDir ".float" HData DATA_FLOAT; mkDir ".double" HData DATA_DOUBLE;
  mkDir ".ascii" HData DATA_ASCII; mkDir ".asciiz" HData (DATA_ASCII + DATA_TERMINATION);
  mkDir ".string" HData (DATA_CUSTOM + DATA_TERMINATION); mkDir ".str" HData (DATA_CUSTOM + DATA_TERMINATION);
  mkDir ".stringn" HData DATA_CUSTOM; mkDir ".strn" HData DATA_CUSTOM;
  mkDir ".sjis" HData (DATA_SJIS + DATA_TERMINATION); mkDir ".sjisn" HData DATA_SJIS;
  mkDir ".psx" HMipsArch 1; mkDir ".ps2" HMipsArch 2; mkDir ".psp" HMipsArch 3; mkDir ".n64" HMipsArch 4; mkDir ".rsp" HMipsArch 5;
  mkDir ".gba" HArmArch 1; mkDir ".nds" HArmArch 2; mkDir ".3ds" HArmArch 3; mkDir ".arm.big" HArmArch 4; mkDir ".arm.little" HArmArch 5;
  mkDir ".saturn" HShArch 1; mkDir ".32x" HShArch 1;
  mkDir ".area" HArea 0; mkDir ".autoregion" HAutoRegion 0; mkDir ".region" HArea 1; mkDir ".defineregion" HDefineArea 1;
  mkDir ".importobj" HObjImport 0; mkDir ".importlib" HObjImport 0;
  mkDir ".erroronwarning" HErrorWarning 0; mkDir ".relativeinclude" HRelativeInclude 0; mkDir ".nocash" HNocash 0; mkDir ".sym" HSym 0;
  mkDir ".definelabel" HDefineLabel 0; mkDir ".definedatalabel" HDefineDataLabel 0;
  mkDir ".function" HFunction MANUALSEPARATOR; mkDir ".func" HFunction MANUALSEPARATOR;
  mkDir ".warning" HMessage 1; mkDir ".error" HMessage 2; mkDir ".notice" HMessage 3;
  mkDir ".include" HInclude 0].

(** The architectures, and getWordSize: Architecture.h 57, Mips.h 24, SuperH.h 21, Arm.h 49 *)
Inductive cpu := CInvalid | CMips | CArm | CSuperH.
Definition word_size (c : cpu) : Z := match c with CSuperH => 2 | _ => 4 end.
(** The names the current architecture looks for first, Parser.cpp 878: MipsParser.cpp 212-218,
    ArmParser.cpp 97-104, ShParser.cpp 50-53 *)
Definition arch_names (c : cpu) : list string :=
  match c with
  | CInvalid => []
  | CMips => [".resetdelay"; ".fixloaddelay"; ".loadelf"; ".importobj"; ".importlib"]
  | CArm => [".thumb"; ".arm"; ".pool"; ".msg"; ".definearmlabel"; ".definethumblabel"]
  | CSuperH => [".importobj"; ".importlib"]
  end.

(** TextFile::Encoding, and getEncodingFromString, Util/FileClasses.cpp 991-1015 *)
Inductive encoding := EncSjis | EncUtf8 | EncUtf16Le | EncUtf16Be | EncAscii | EncGuess.
Definition encoding_of (s : string) : encoding :=
  let n := lower_string s in
  if String.eqb n "sjis" then EncSjis else if String.eqb n "shift-jis" then EncSjis
  else if String.eqb n "utf8" then EncUtf8 else if String.eqb n "utf-8" then EncUtf8
  else if String.eqb n "utf16" then EncUtf16Le else if String.eqb n "utf-16" then EncUtf16Le
  else if String.eqb n "utf16-be" then EncUtf16Be else if String.eqb n "utf-16-be" then EncUtf16Be
  else if String.eqb n "ascii" then EncAscii else EncGuess.

(** The commands, with the parameters they keep *)
Inductive machine := MPsx | MPs2 | MPsp | MN64 | MRsp | MGba | MNds | M3ds | MArmBig | MArmLittle | MSaturn.
Inductive amode := AVirtual | APhysical | AFill.
Inductive setting := SErrorOnWarning | SRelativeInclude | SNocash | SSym.
Inductive level := LWarning | LError | LNotice.
Inductive dcmd :=
| DOpen (file : string) (copy : option string) (address : Z)
| DCreate (file : string) (address : Z)
| DClose
| DIncbin (file : string) (start size : option arg)
| DPosition (physical : bool) (e : arg)
| DAlignFill (m : amode) (n fill : option arg)       (* n = None: the alignment 4 *)
| DSkip (e : arg)
| DHeaderSize (e : arg)
| DObjImport (file : string) (ctor : option string)
| DTable (file : string) (e : encoding)
| DData (m : dmode) (terminate : bool) (l : list arg)
| DArch (m : machine) (thumb : bool)
| DArea (shared : bool) (position : option arg) (size : arg) (fill : option arg)
| DAutoRegion (min max : option arg)
| DSwitch (s : setting) (on : bool)
| DLabel (name : string) (value : arg) (thumb : option bool)
| DMessage (l : level) (text : arg)
| DInclude (file : string) (e : encoding).

Section Texts.
  (** to_string of integers and floats, Core/Expression.cpp 13-21 *)
  Variable text_of : value -> string.

  (** evaluateString, Expression.cpp 836-859 *)
  Definition evaluateString (a : arg) (convert : bool) : option string :=
    match value_now a with
    | VStr s => Some s
    | VInt _ | VFloat _ => if convert then Some (text_of (value_now a)) else None
    | VInvalid => None
    end.
  (** evaluateInteger to int64_t, Expression.h 188-200 *)
  Definition evaluateInteger (a : arg) : option Z := match value_now a with VInt z => Some z | _ => None end.
  (** evaluateIdentifier, Expression.cpp 861-868 *)
  Definition evaluateIdentifier (a : arg) : option string := match a with PIdent n _ => Some n | _ => None end.

  (** parseExpressionList, Parser.cpp 53-99: the list or the failure, and the messages *)
  Definition parseExpressionList (args : list arg) (min : nat) (max : option nat) : option (list arg) * list derr :=
    let ps := match args with [] => [PBad] | _ => args end in
    let bad := map (fun _ => EParameter) (filter (fun a => negb (loaded a)) ps) in
    if Nat.ltb (List.length ps) min then (None, bad ++ [EFew min])
    else if match max with Some m => Nat.ltb m (List.length ps) | None => false end
         then (None, bad ++ match max with Some m => [EMany m] | None => [] end)
    else (match bad with [] => Some ps | _ => None end, bad).

  (** What a function gives: the command, the messages, the parameters it leaves unread *)
  Definition result : Type := option dcmd * list derr * list arg.
  Definition none (errs : list derr) : result := (None, errs, []).
  Definition some (c : dcmd) (rest : list arg) : result := (Some c, [], rest).
  Definition with_list (args : list arg) (min : nat) (max : option nat) (f : list arg -> result) : result :=
    match parseExpressionList args min max with
    | (Some l, errs) => f l
    | (None, errs) => none errs
    end.

  (** parseDirectiveOpen, DirectivesParser.cpp 26-53 *)
  Definition dir_open (l : list arg) : result :=
    match l with
    | [a; b] => match evaluateString a false, evaluateInteger b with
                | Some f, Some z => some (DOpen f None z) []
                | _, _ => none []
                end
    | [a; c; b] => match evaluateString a false, evaluateInteger b, evaluateString c false with
                   | Some f, Some z, Some g => some (DOpen f (Some g) z) []
                   | _, _, _ => none []
                   end
    | _ => none []
    end.
  (** parseDirectiveCreate, 55-73 *)
  Definition dir_create (l : list arg) : result :=
    match l with
    | [a; b] => match evaluateString a false, evaluateInteger b with
                | Some f, Some z => some (DCreate f z) []
                | _, _ => none []
                end
    | _ => none []
    end.
  (** parseDirectiveIncbin, 82-100 *)
  Definition dir_incbin (l : list arg) : result :=
    match l with
    | a :: r => match evaluateString a false with
                | Some f => some (DIncbin f (nth_error r 0) (nth_error r 1)) []
                | None => none []
                end
    | [] => none []
    end.
  (** Parser::parseExpression for the next parameter; nothing can be read at the end of the line *)
  Definition next_expression (args : list arg) : arg * list arg :=
    match args with [] => (PBad, []) | a :: r => (a, r) end.
  (** parseDirectivePosition, 102-122 *)
  Definition dir_position (flags : Z) (args : list arg) : result :=
    let (e, rest) := next_expression args in
    if negb (loaded e) then none []
    else if Z.land flags USERMASK =? 1 then some (DPosition true e) rest
    else if Z.land flags USERMASK =? 2 then some (DPosition false e) rest
    else none [].
  (** parseDirectiveAlignFill, 124-153; [closed]: the next token is a separator if no parameter is left *)
  Definition dir_align (flags : Z) (args : list arg) (closed : bool) : result :=
    match (if Z.land flags USERMASK =? 2 then Some AVirtual else if Z.land flags USERMASK =? 1 then Some APhysical
           else if Z.land flags USERMASK =? 4 then Some AFill else None) with
    | None => none []
    | Some m =>
        if match m with AFill => false | _ => true end && closed && match args with [] => true | _ => false end
        then some (DAlignFill m None None) []
        else with_list args 1 (Some 2%nat) (fun l => some (DAlignFill m (nth_error l 0) (nth_error l 1)) [])
    end.
  (** parseDirectiveSkip, 155-162 *)
  Definition dir_skip (l : list arg) : result := match l with a :: _ => some (DSkip a) [] | [] => none [] end.
  (** parseDirectiveHeaderSize, 164-171 *)
  Definition dir_header (args : list arg) : result :=
    let (e, rest) := next_expression args in if loaded e then some (DHeaderSize e) rest else none [].
  (** parseDirectiveObjImport, 173-193 *)
  Definition dir_obj (l : list arg) : result :=
    match l with
    | a :: r => match evaluateString a true with
                | None => none []
                | Some f => match r with
                            | [] => some (DObjImport f None) []
                            | c :: _ => match evaluateIdentifier c with Some n => some (DObjImport f (Some n)) [] | None => none [] end
                            end
                end
    | [] => none []
    end.
  (** parseDirectiveTable, 320-349 *)
  Definition dir_table (l : list arg) : result :=
    match l with
    | a :: r => match evaluateString a true with
                | None => none [EFileName]
                | Some f => match r with
                            | [] => some (DTable f EncGuess) []
                            | c :: _ => match evaluateString c true with Some n => some (DTable f (encoding_of n)) [] | None => none [EEncoding] end
                            end
                end
    | [] => none []
    end.
  (** parseDirectiveData, 351-406; CDirectiveData::setNormal takes a size of 1, 2, 4 or 8 *)
  Definition dir_data (word : Z) (flags : Z) (l : list arg) : result :=
    let terminate := negb (Z.land flags DATA_TERMINATION =? 0) in
    let k := Z.land (Z.land flags (Z.lnot DATA_TERMINATION)) USERMASK in
    let normal n := some (DData (d_mode (set_normal n)) false l) [] in
    if k =? DATA_8 then normal 1
    else if k =? DATA_16 then normal 2
    else if k =? DATA_32 then normal 4
    else if k =? DATA_64 then normal 8
    else if k =? DATA_HWORD then normal (Z.quot word 2)
    else if k =? DATA_WORD then normal word
    else if k =? DATA_DWORD then normal (word * 2)
    else if k =? DATA_ASCII then some (DData DAscii terminate l) []
    else if k =? DATA_SJIS then some (DData DSjis terminate l) []
    else if k =? DATA_CUSTOM then some (DData DCustom terminate l) []
    else if k =? DATA_FLOAT then some (DData DFloat false l) []
    else if k =? DATA_DOUBLE then some (DData DDouble false l) []
    else some (DData DInvalid false []) [].
  (** parseDirectiveMipsArch 408-433, parseDirectiveArmArch 435-464, parseDirectiveShArch 466-478 *)
  Definition dir_mips (flags : Z) (args : list arg) : result :=
    if flags =? 1 then some (DArch MPsx false) args else if flags =? 2 then some (DArch MPs2 false) args
    else if flags =? 3 then some (DArch MPsp false) args else if flags =? 4 then some (DArch MN64 false) args
    else if flags =? 5 then some (DArch MRsp false) args else none [].
  Definition dir_arm (flags : Z) (args : list arg) : result :=
    if flags =? 1 then some (DArch MGba true) args else if flags =? 2 then some (DArch MNds false) args
    else if flags =? 3 then some (DArch M3ds false) args else if flags =? 4 then some (DArch MArmBig false) args
    else if flags =? 5 then some (DArch MArmLittle false) args else none [].
  Definition dir_sh (flags : Z) (args : list arg) : result :=
    if flags =? 1 then some (DArch MSaturn false) args else none [].
  (** parseDirectiveArea, 480-496 *)
  Definition dir_area (flags : Z) (l : list arg) : result :=
    match l with
    | a :: r => some (DArea (negb (Z.land flags 1 =? 0)) None a (nth_error r 0)) []
    | [] => none []
    end.
  (** parseDirectiveDefineArea, 498-511 *)
  Definition dir_define_area (flags : Z) (l : list arg) : result :=
    match l with
    | a :: b :: r => some (DArea (negb (Z.land flags 1 =? 0)) (Some a) b (nth_error r 0)) []
    | _ => none []
    end.
  (** parseDirectiveAutoRegion, 513-533 *)
  Definition dir_auto (args : list arg) (closed : bool) : result :=
    let f l := some (match l with [a] => DAutoRegion (Some a) None | [a; b] => DAutoRegion (Some a) (Some b) | _ => DAutoRegion None None end) [] in
    match args with
    | [] => if closed then f [] else with_list args 0 (Some 2%nat) f
    | _ => with_list args 0 (Some 2%nat) f
    end.
  (** getStringOrIdentifier, 535-549 *)
  Definition string_or_identifier (args : list arg) : option string :=
    match args with
    | PIdent n _ :: _ => Some n
    | PString s :: _ => Some (lower_string s)
    | _ => None
    end.
  (** parseDirectiveErrorWarning 551-568, RelativeInclude 570-587, Nocash 589-606, Sym 608-620 *)
  Definition dir_switch (s : setting) (args : list arg) : result :=
    match string_or_identifier args with
    | None => none []
    | Some n => if String.eqb n "on" then some (DSwitch s true) (tl args)
                else if String.eqb n "off" then some (DSwitch s false) (tl args) else none []
    end.
  (** parseDirectiveDefineLabel, 622-653 *)
  Definition dir_label (thumb : option bool) (args : list arg) : result :=
    match args with
    | PIdent n _ :: e :: rest =>
        if negb (loaded e) then none [] else if negb (valid_name n) then none [ELabelName] else some (DLabel n e thumb) rest
    | _ => none []
    end.
  (** parseDirectiveMessage, 689-704 *)
  Definition dir_message (flags : Z) (args : list arg) : result :=
    let (e, rest) := next_expression args in
    if flags =? 1 then some (DMessage LWarning e) rest else if flags =? 2 then some (DMessage LError e) rest
    else if flags =? 3 then some (DMessage LNotice e) rest else none [].
  (** parseDirectiveInclude, 706-748, up to the opening of the file *)
  Definition dir_include (l : list arg) : result :=
    match l with
    | a :: r => match evaluateString a true with
                | None => none []
                | Some f => match r with
                            | [] => some (DInclude f EncGuess) []
                            | c :: _ => match evaluateString c true with Some n => some (DInclude f (encoding_of n)) [] | None => none [] end
                            end
                end
    | [] => none []
    end.

  (** The call of the function, Parser.cpp 246; None: read elsewhere *)
  Definition call (c : cpu) (h : handler) (flags : Z) (l : line) : option result :=
    let args := l_args l in
    match h with
    | HOpen => Some (with_list args 2 (Some 3%nat) dir_open)
    | HCreate => Some (with_list args 2 (Some 2%nat) dir_create)
    | HClose => Some (some DClose args)
    | HIncbin => Some (with_list args 1 (Some 3%nat) dir_incbin)
    | HPosition => Some (dir_position flags args)
    | HAlignFill => Some (dir_align flags args (l_closed l))
    | HSkip => Some (with_list args 1 (Some 1%nat) dir_skip)
    | HHeaderSize => Some (dir_header args)
    | HObjImport => Some (with_list args 1 (Some 2%nat) dir_obj)
    | HTable => Some (with_list args 1 (Some 2%nat) dir_table)
    | HData => Some (with_list args 1 None (dir_data (word_size c) flags))
    | HMipsArch => Some (dir_mips flags args)
    | HArmArch => Some (dir_arm flags args)
    | HShArch => Some (dir_sh flags args)
    | HArea => Some (with_list args 1 (Some 2%nat) (dir_area flags))
    | HDefineArea => Some (with_list args 2 (Some 3%nat) (dir_define_area flags))
    | HAutoRegion => Some (dir_auto args (l_closed l))
    | HErrorWarning => Some (dir_switch SErrorOnWarning args)
    | HRelativeInclude => Some (dir_switch SRelativeInclude args)
    | HNocash => Some (dir_switch SNocash args)
    | HSym => Some (dir_switch SSym args)
    | HDefineLabel => Some (dir_label None args)
    | HDefineDataLabel => Some (dir_label (Some false) args)
    | HMessage => Some (dir_message flags args)
    | HInclude => Some (with_list args 1 (Some 2%nat) dir_include)
    | HConditional | HFunction => None
    end.

  (** The conditions of the loop, Parser.cpp 232-241 *)
  Definition has (flags f : Z) : bool := negb (Z.land flags f =? 0).
  Definition applies (nocash memory : bool) (e : dentry) : bool :=
    negb (has (d_flags e) DISABLED) && negb (has (d_flags e) NOCASHOFF && nocash) &&
    negb (has (d_flags e) NOCASHON && negb nocash) && negb (has (d_flags e) NOTINMEMORY && memory).
  (** equal_range and the loop, Parser.cpp 229-242 *)
  Definition lookup (t : list dentry) (nocash memory : bool) (name : string) : option dentry :=
    find (fun e => String.eqb (d_name e) name && applies nocash memory e) t.

  (** The outcome of parseDirective, Parser.cpp 221-263 *)
  Inductive outcome := Unknown | Elsewhere | Reported (errs : list derr) | Gives (c : dcmd).
  Definition parseDirective (t : list dentry) (c : cpu) (nocash memory : bool) (name : string) (l : line) : outcome :=
    match lookup t nocash memory name with
    | None => Unknown
    | Some e =>
        match call c (d_handler e) (d_flags e) l with
        | None => Elsewhere
        | Some (None, errs, _) => Reported (match errs with [] => [EDirective] | _ => errs end)
        | Some (Some cmd, _, rest) =>
            if negb (has (d_flags e) MANUALSEPARATOR) && negb (match rest with [] => l_closed l | _ => false end)
            then Reported [EUnterminated] else Gives cmd
        end
    end.
  (** The two tables, Parser.cpp 878-886 *)
  Definition parse_line (c : cpu) (nocash memory : bool) (name : string) (l : line) : outcome :=
    if existsb (String.eqb name) (arch_names c) then Elsewhere else parseDirective directives c nocash memory name l.

  (** CDirectiveMessage::Validate, Commands/CDirectiveMessage.cpp 12-34: the text, or "Invalid expression" *)
  Definition message_validate (l : level) (a : arg) : level * option string :=
    match evaluateString a true with Some s => (l, Some s) | None => (LError, None) end.
End Texts.
