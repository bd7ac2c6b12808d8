# Formal model of armips: design

The code under study is Kingcom/armips, in `/repo` (C++).  Everything in `rocq/theories` is a
Coq 8.16.1 development that uses the standard library only.

## Layout of the development

Every area has up to four files:

| suffix        | content |
|---------------|---------|
| `XModel.v`    | total computable Gallina transcription of the C++ functions, each definition cites file and lines |
| `XSpec.v`     | the specification side: independent definitions used to state the properties (decoders, ISA semantics, reference algorithms) |
| `XProofs.v`   | lemmas |
| `XProps.v`    | only `Theorem` / `exact lemma` / `Print Assumptions`, plus the `Example`s showing that hypotheses are satisfiable |

Conventions

* C++ integers are `Z`, with explicit wrapping functions (`u8 u16 u32 u64 s8 s16 s32 s64`, `Ints.v`)
  exactly where the C++ code converts or wraps.
* Undefined behaviour of the host program (signed overflow, oversized shifts, out-of-bounds access,
  failed `std::variant` access) and uncaught exceptions are distinct outcomes of the model, never a
  normal-looking value.
* `double` is IEEE binary64 from `Coq.Floats.SpecFloat` (pure Gallina definitions, no axioms).
* Loops are structural recursion or folds; where the C++ loop has no obvious bound the model uses
  fuel with a distinguished out-of-fuel result that the theorems exclude or rule out.
* Properties that are false of the code are kept in full in `properties.jsonl`; the theorem
  `..._refuted` gives a concrete witness and `..._partial` proves the strongest version that holds.

## Plan per property

| id | what is modelled | how it is proved |
|----|------------------|------------------|
| C01 | `ExpressionValue` operators (Expression.cpp 42-450) on integers | case analysis, arithmetic on `Z` modulo 2^64 |
| C02 | `simplify`/`evaluate` over the whole expression tree, function table with safety classes | induction on the tree |
| C03 | the recursive-descent expression parser over tokens | induction on printed trees, precedence-indexed statement |
| C04 | same | refutation by computation; partial: characterisation for the well-behaved fragment |
| C05 | `toString`, escape function, parser | round trip by induction (partial), refutations for strings and calls |
| C06 | logical operators on every type pair | case analysis, refutation for floats |
| C07 | comparison operators | arithmetic / induction on strings |
| C08 | `expFuncMin/Max` | induction on argument lists, refutation for negative floats |
| C09,C10 | `SymbolTable` as association list keyed by (name,file,section) | invariants over operation histories |
| C11 | `getUniqueLabelName` | injectivity of zero-padded hexadecimal printing |
| C12 | macro label renaming `%s_%s_%08X` | injectivity per macro (partial), refutation across macros |
| C13,C14 | `Tokenizer::processElement`, replacement insertion | termination by well-founded measure / divergence by invariant |
| C73-C75 | ARM-mode parser `parseArmOpcode` with its operand readers, all rows of ArmOpcodes, `Validate`/`Encode` and the literal pool offset (ArmLineModel on ArmModel); expression values as an arbitrary function | inductive relations for spelling and layout, sound and complete for the parser by induction on the syntax string; a decoder for the whole A32 instruction set; one proof per form of instruction with bit-field lemmas; rows checked against the forms by computation |
| C76 | `.importobj`/`.importlib` as a command of the assembly loop (`CObj` of AsmModel), its object given by ElfModel (AsmObjModel), with the labels of constructor sections and the table of the function for them | the layout relation of C19 with a case for objects, composed with the placement and symbol theorems of C53 and C69; that section labels need no report of a change: an invariant over the passes (`flags`, `landed`) |
| C77 | `loadPsxLibrary`, `loadString`, `parseObject` on lists of bytes | a writer of records and libraries as the spec; reading what it writes gives the contents, by induction on the records with the state of the reader as invariant |
| C78 | as C77 | refuted by three files (data without a segment, a record cut off, a library member of size 0); that object reading ends and that unknown records are refused is proved |
| C79 | `init`, `relocateFile`, `relocate` on read objects (`psx_import`) | placement as a stack of blocks in the spec; induction on segments, symbols and files; refuted for unaligned starts and for addresses from 0x80000000 on, where labels are right modulo 2^32 only |
| C80 | as C79 | invariant over the sorted relocations of a segment: each patched word once, pairs by their order; the effect is stated on words of the output |
| C81 | as C79 | refuted by two pairs for one symbol with different displacements; with one displacement for each thing acceptance is proved for all sound objects |
| C82 | `init`, `psx_import` | refuted by a library with two members that define one name; names that the program defined before are reported |
| C83 | `loadArArchive` on a list of bytes | a writer of archives as the spec; induction on the members with an even position as invariant; refuted for names of 15 characters and for members with fewer than 4 bytes |
| C84 | `ElfFile::load`, header, section, symbol and relocation readers, `init` for a file (`init_file`, `init_elf`) | the spec says which bytes a file has at which places (`file_of`), without an order of writing; induction on the sections, relocations and symbols; refuted for a further string table and for two relocation sections for one section |
| C85 | as C83, C84 | refuted by a file that is cut off and an archive that is read for ever; foreign files, unfit objects and archives with them are proved to be refused |
| C86 | `ElfFile::load`, `save` with every order of the parts (`load_elf`, `save`) | the spec says which bytes a program has at which places (`program`) and which fields two programs share (`kept`); a relation between the loaded structures and the program is kept by every step of saving; refuted for a segment without sections and for the alignment of places in the file |
| C87 | `MipsElfFile`, `.org` and data in it (`seekVirtual`, `advanceMemory`, `write`) | memory of a program as a partial map from addresses to bytes; the relation of C86 is kept by every write; refuted for data that ends with the last section, that crosses into another segment, and for sections in no segment |
| C88 | as C87 | exact condition for going to a virtual address; refuted for physical addresses (the place in the section is lost) and for the position after a pass |
| C89 | the three constructor templates (`mips_stub`, `sh_stub`, `arm_text`), assembled by the models of C35/C42 and C36 | a machine with branch delay slots and calls runs the words (`runs`); two nested loops by induction over the table and each section; refuted for empty sections, for constructors that use the argument area of their caller (the saved registers are there), for SuperH (the end of the section is loaded relative to the wrong register) and for ARM (a label that is not filled in, a stray quote) |
| C90 | `parse_arguments`, `exit_code` | `written` says how items are written; the loop reads exactly the lists that are written, then an induction over the items gives the settings; uniqueness by comparing the first words |
| C91 | `start` (equs and labels of runArmips), `source_equ` (the directive) | the two are compared line by line with a table that does not know the name yet; labels by the history of a symbol (C09); refuted for values of labels that are not plain numbers, for names that differ by case, for upper case names that stand for themselves, and for a label with the name of an equ |
| C92 | `to_half`, `from_half`, `immediate_half` on the bits of a double | `nearest` compares exact distances (in units of 2^-1074) with all finite halves; rounding analysed by the exponent; refuted for numbers below 2^-14, which become zero even where 2^-14 is nearest |
| C93 | `vpfxs`, `vpfxd`, `vrot`, `vcst` on tokens | lanes written by `write_source`, `write_dest`, `rlane_written`; the parser is inverted lane by lane, decoding as by the unit (`source_of`, `dest_of`, `rotation_of`) checked over the finitely many lanes; refuted: sqrt(0.5) in the table of vcst never matches, and a rotation of zeros only is refused |
| C94 | `functions` (registry by depth of calls), `execute`, `define` | big-step relation `means` with environments; parsing commutes with replacing parameters by values (induction over the parser); evaluation and `means` agree by induction over the depth and the derivation, folding by C02; refuted: the branch not taken is folded (uncaught exception, false warnings), static and local labels are those of the caller |
| C95 | `call_arguments`, `define` on tokens | `text` (nested brackets) and counting of brackets; the loop characterised exactly by induction over the tokens; refuted: unbalanced curly and square brackets are accepted, a call at the end of a content without the end of a statement is read for ever |
| C96 | `calls` (labels found in the first call, replacements of each call) | `texts`: the content with each token replaced; labels of the replaced content are those of the content under the given names, then induction over the calls; refuted: names given to labels in the first call are renamed in arguments of later calls, an argument that is the name of a label of the content |
| C97 | `parseThumbOpcode`, `run_mask` over the table of ThumbModel.v | `tlays` (operands laid out by a mask), `tfirst` (first row that fits); soundness and completeness by induction over the mask, then over the rows; independence of the variables by the kinds of operands of each row |
| C98 | `thumb_line`: parser, Validate, Encode | first reading, then C34 and C62 for its row; `tmeans`, `tfits` say what the line asks for with the decoder of ThumbSpec.v; refuted: push {r8} with signed characters, numbers of more than 32 bits, ldr rd,[pc] |
| C99 | the table `directives`, `lookup`, `dir_data` | `unit_bytes`, `data_directive` give the names by the manual; both directions over all rows; one row per name and mode by computation over the pairs of rows, so any permutation of the table finds the same row; bytes by C26 |
| C100 | `parse_line`: `lookup`, `parseExpressionList`, the functions of the table | `says` has one constructor per form of the manual; equivalence with the parser by cases over the rows and the shapes of the parameter list; refuted: an encoding name outside the list is taken as if none was given |
| C101 | `replaceAll`, `parseTemplate`, `preprocessMacro`, the texts of all templates | `pieces` reads a template as text and gaps, `filled` fills all gaps at once; the replacement of one name after the other gives the same by an invariant over the pieces, for values without anything that looks like a gap; texts of expressions are such values by induction; refuted: `.msg "%alignment%"`, and a misspelled gap of the ARM constructor function |
| C102 | `arch_table`, `arch_line` and the functions of the tables | `arch_says` has one constructor per form, `imports` says which importer takes a file; equivalence by cases over the rows; the names are exactly those left out in C100 |
| C103 | `exportSymbols`, `label_of`, `info_of` | `importable`, `first_with`, `taken` say what may be defined and what clashes; induction over the symbols of all files; refuted for the info of symbols that are no ARM functions: `targetSymbolInfo` is read without having been set |
| C15, C71, C72 | condition stack, `parseCommandSequence`, `parseDirectiveConditional` (CondModel); statements as arbitrary functions | induction on well-nested text and on fuel, refutations by computation |
| C16 | `stringToInt` | induction on digit strings |
| C17,C18 | `FileManager`, `GenericAssemblerFile` with an explicit file contents map | invariants, refinement to byte map |
| C19-C21, C70 | commands, sequences, the validation loop (AsmModel) | a big-step layout relation (AsmSpec), simulation of validation and encoding by induction on command trees |
| C22 | `CDirectiveAlignFill`, `CDirectiveSkip` | arithmetic |
| C23-C25 | `Allocations`, `CDirectiveArea`, `CDirectiveAutoRegion` | invariants over request histories |
| C26 | `CDirectiveData` | induction on argument lists |
| C27,C28 | `Trie`, `EncodingTable` | refinement to a finite map, induction on strings |
| C29 | UTF-8 encode/decode | arithmetic on bit fields |
| C30 | table-driven CRC vs bit-serial CRC | finite check of the table lifted to all inputs by linearity/induction |
| C31-C34, C37-C39 | ARM/Thumb `Validate`/`Encode`, literal pool | bit-field arithmetic; induction for pools |
| C35, C40, C42-C49 | MIPS encoder, macros run on a small MIPS semantics | bit-field arithmetic, symbolic execution |
| C36, C41 | SuperH encoder and opcode table | bit-field arithmetic, finite table check |
| C50-C53 | `relocateFile`, the three relocators and section layout on decoded object files | arithmetic, induction on relocation lists and sections; refutations by computation |
| C54 | `SymbolData` | invariants over histories |
| C55 | `Logger` | invariants over histories |
| C56 | `ByteArray` | refinement to lists |
| C57 | load-delay state machine | induction on instruction sequences |
| C58 | `TextFile` reading | induction on file contents |
| C59 | label names of macros, `getUniqueLabelName`, what the tokenizer accepts as an identifier | shape of the names |
| C60,C61 | `Allocations` | invariants over histories, completeness of the search |
| C62 | Thumb encoder and a decoder from the instruction set | bit-field arithmetic, finite checks |
| C63-C66 | `FileTokenizer` on lines and files | induction on text, fuel bounds |
| C67 | all pairs of MIPS opcode rows | finite check of fixed bits lifted to all operands |
| C68 | SuperH operands and fields | arithmetic, finite table check |
| C69 | addresses of exported symbols | lookup in the section layout |

## Trusted base

* The Coq 8.16.1 kernel (including `vm_compute`).
* `Print Assumptions` of every property theorem: see the section "Assumptions" (kept up to date).
* The correspondence between the Gallina models and the C++ text, which is by reading; every
  definition cites the lines it transcribes.  "Not modelled" lists below say what is left out.

## Assumptions

`Print Assumptions` follows every theorem in the `XProps.v` files and prints "Closed under the global
context" for each of them: no axiom of the standard library, none of another library and none of our
own is used.  Variables and hypotheses occur only inside closed sections.  `coqchk -o` lists the
`Coq.ssr.ssrunder` parameters, which the standard library's `ssreflect` support declares and which no
theorem here uses.

## Not modelled

* The usage text and the test runner (`Main/Tests.cpp`), the temporary file (`Util` of
  `Core/Misc` apart from `Logger`), the listing, file system access beyond `FileManager`.
* The parser for directives beyond what the areas above cite.
* The order `determinePartOrder` finds for the parts of an ELF program (every order is covered).
* The Shift-JIS tables, which are parameters.
* The texts of messages.

## Modelled code and simplifications, by file

<!-- modelled:begin -->
* `ArmModel.v`: Model of the ARM-mode instruction encoder. Transcribes Archs/ARM/ArmOpcodes.{h,cpp} and Archs/ARM/CArmInstruction.cpp. Expressions are evaluated by the caller: an evaluation result is passed in ([option Z] for [evaluateInteger], [imm_value] for [evaluate]). Error messages are collapsed to `RErr`: an error was queued, so assembly fails. `RUb` marks operations that have no defined behaviour in C++17.
* `ExprModel.v`: Model of expression values, expression trees, their evaluation and their parse-time simplification: /repo/Core/Expression.cpp, /repo/Core/Expression.h, /repo/Core/ExpressionFunctions.cpp, /repo/Core/ExpressionFunctionHandler.cpp. Simplifications, valid for the whole file: - [double] is IEEE binary64 as defined by [Coq.Floats.SpecFloat] (one NaN, no payload); - the text produced for a [double] ("%#.17g", "%g") and regular expression matching are parameters (record [host]), so every result holds for any behaviour of them; - the evaluation order of the two operands of a binary operator is unspecified in C++; the model evaluates left to right, which only affects the order of the queued messages; - looking up an unknown label creates an undefined label object (Core/SymbolTable.cpp 82-101); evaluation cannot observe that, so lookup is a function of the state; - the body of a user function (ExpressionFunctionHandler.cpp 115-180) is an arbitrary function of the state and the argument values.
* `ExprFuncModel.v`: Model of the built-in expression functions: /repo/Core/ExpressionFunctions.cpp, /repo/Archs/MIPS/MipsExpressionFunctions.cpp, /repo/Archs/ARM/ArmExpressionFunctions.cpp.
* `ParseModel.v`: Model of the expression parser, Parser/ExpressionParser.cpp. The token stream is the list of tokens that the tokenizer still has to deliver, after equ and macro parameter expansion (Tokenizer::processElement; modelled in TokModel.v). Line, column and original text of a token play no role in parsing an expression and are left out.
* `LexModel.v`: Model of the conversion of one source line to tokens: FileTokenizer in Parser/Tokenizer.cpp, and stringToInt of Util/Util.cpp. Simplifications: a single line is tokenized as if it were the last of the input, so a block comment that is not closed on the line is not closed at all, and a trailing "equ" does not reach over to the next line (TokModel has whole files). createToken (Tokenizer.cpp 337-385) takes substr at linePos, which throws std::out_of_range when linePos is beyond the line; nothing catches it, and this is RUb here. isalnum and tolower are those of the "C" locale; for bytes above 127 they are taken to be false / the identity. [strtod] is a parameter.
* `SymModel.v`: Model of the symbol table: Core/SymbolTable.h and Core/SymbolTable.cpp, the label naming of macro expansions (Parser/Parser.cpp 764-782) and the definition step of a label command. A label object (std::shared_ptr<Label>) is represented by its index in the vector [labels]; the objects are never removed from it, so the index stands for the pointer until clear(). Sections and file numbers are ints that are counted up from 0; their overflow is not modelled.
* `ExpandModel.v`: Model of the token replacement layer: Tokenizer in Parser/Tokenizer.cpp 42-275 (processElement, nextToken, peekToken, registerReplacement) and Parser::addEquation, Parser.cpp 306-342. The token list is represented from the current position on; every token carries its [checked] mark. Line, column and original text are left out. In processElement the name [identifier] is a reference into the token that is overwritten, so after a replacement it reads the name of the replacement token; the comparison of line 84 therefore never sees a difference, and a token replaced by an identifier is not replaced a second time by a macro argument.
* `CrcModel.v`: Model of Util/CRC.cpp. A buffer is a list of bytes (integers 0..255).
* `BytesModel.v`: Model of Util/ByteArray.{h,cpp}. The allocated memory is a list of cells; [None] is a byte that malloc or realloc left uninitialised. Sizes are size_t; they are natural numbers here, so wrapping at 2^64 and failing allocations are not modelled. `RUb` is an access outside the allocated memory.
* `ReaderModel.v`: Model of reading text: class TextFile, Util/FileClasses.{h,cpp}, and the UTF-8 encoders of Util/Util.cpp and Util/FileClasses.cpp. Bytes are integers 0..255. The Shift-JIS tables (FileClasses.cpp 31-607) are not transcribed; the conversion is a parameter. Error texts are reduced to a flag.
* `TableModel.v`: Model of custom string encodings: classes Trie and EncodingTable (Util/EncodingTable.{h,cpp}), the directive .loadtable and the strings of .string (Commands/CDirectiveData.cpp). Text and data are lists of bytes 0..255. Reading the lines of the table file is in ReaderModel.v; here the file is given by its lines.
* `LogModel.v`: Model of class Logger, Core/Misc.{h,cpp}. Texts are kept as given; formatError's file position is left out.
* `SymfileModel.v`: Model of class SymbolData, Core/SymbolData.{h,cpp}: what the commands announce for the no$gba symbol file, and the list that is written. File objects are numbers. The formatted numbers (%08X, %04X) and the lower-casing of version 1 are parameters; the file itself (a line per entry) is not modelled further.
* `FileModel.v`: Model of the file manager: GenericAssemblerFile and FileManager, Core/FileManager.{h,cpp}. File names are numbers, the disk is a map from names to contents. A stream is open or not, has a write position, and may be in the failed state. Writing past the end fills the gap with zero bytes. The host is a parameter: which files can be written, and its byte order. Running out of space is not modelled. `RUb`: a signed 64-bit address computation overflows, or the null pointer is used. The effect of seekVirtual on Global.Section is not modelled.
* `AllocModel.v`: Model of the bookkeeping of areas and regions: Core/Allocations.{h,cpp}. Positions and sizes are exact integers: the signed 64-bit sums of the program are taken not to overflow. Maps are lists sorted by key; of the multimap of sub areas only the elements of one key are used, so its order is left open (newest first).
* `FloatModel.v`: The bits of floating point numbers: getFloatBits and getDoubleBits, Util/Util.cpp 97-111, and the conversion of a double to a float. Numbers are those of [Coq.Floats.SpecFloat]; the bits of a NaN, which carry a payload, are parameters.
* `DataModel.v`: Model of the data directives: CDirectiveData, Commands/CDirectiveData.{h,cpp}. The entries are taken after evaluation. Strings are byte strings. The Shift-JIS table, built by encodeSjis (198-228) from the conversion table of the text reader, is a parameter.
* `ThumbModel.v`: Model of the Thumb-mode instruction encoder. Transcribes Archs/ARM/ThumbOpcodes.{h,cpp} and Archs/ARM/CThumbInstruction.cpp. Expressions are evaluated by the caller, as for ARM mode. `RErr`: an error was queued. `RUb`: a variable is used that was never set.
* `TokModel.v`: Tokenizing a whole file: the loop of FileTokenizer::init over the lines of the input, with block comments that span lines and the flags that are kept from line to line.
* `MipsTable.v`: The MIPS opcode and register tables: Archs/MIPS/MipsOpcodes.{h,cpp}, and the register names of Archs/MIPS/MipsParser.cpp.
* `MipsModel.v`: Model of the MIPS instruction parser and encoder. Transcribes the parameter parsing of Archs/MIPS/MipsParser.cpp and Archs/MIPS/CMipsInstruction.cpp. An instruction as written is its mnemonic and a list of [piece]s; the tokenizer and the expression parser are modelled elsewhere, so an expression appears as its value. `RErr`: an error was queued. `RUb`: undefined behaviour of the C++ code.
* `MipsMacroModel.v`: Model of the MIPS macros: Archs/MIPS/MipsMacros.{h,cpp} and the macro part of Archs/MIPS/MipsParser.cpp. A macro turns a line into a text with [.if] directives and lines, which is parsed like source text. Here a line is its mnemonic and its operands as in MipsModel, and an expression is its value, so the conditions are decided and the text is a list of lines. Simplified: - the text of an operand is read back as that operand (for expressions this is C05; what cannot be read back is rejected by the program, so it accepts fewer lines than the model); - immediates that are floats are rejected here, also li.s; - the warnings of MipsMacroCommand::Validate (MipsMacros.cpp 20-39) and the label put in front of the lines (preprocessMacro, 52-63), to which "." in the operands refers, are left out.
* `MipsDelayModel.v`: Load delays over a whole sequence of lines. Files: Archs/MIPS/MipsParser.cpp 130-140 ([.resetdelay], [.fixloaddelay]), Archs/MIPS/Mips.cpp 52-57 ([Revalidate]), Archs/MIPS/CMipsInstruction.cpp 16-22 (constructor) and 204-245 (through [mips_validate]), Commands/CommandSequence.cpp. One pass of [Validate] over the lines, at fixed addresses, and the words [Encode] then writes.
* `ShTable.v`: The SuperH opcode table, row by row. Files: Archs/SuperH/ShOpcodes.h 5-58, Archs/SuperH/ShOpcodes.cpp 3-198.
* `ShModel.v`: SuperH instructions: from the text to the halfword. Files: Archs/SuperH/ShParser.cpp (parseRegister 59-85, parseImmediate 87-106, matchSymbol 108-127, decodeImmediateSize 129-154, decodeOpcode 156-191, parseParameters 193-289, parseOpcode 291-331), Archs/SuperH/CShInstruction.cpp (Validate 44-131, Encode 133-183). Simplified: the operands are pieces, not tokens. An expression is one piece with its value, so how its tokens are read (ExpressionParser.cpp, modelled in SyntaxModel) is not repeated here; the split of the line into pieces is the one of the written instruction. [memcmp] in parseParameters 212 may read behind the end of the operand string; the result does not depend on these bytes. Only .saturn selects this architecture (DirectivesParser.cpp 466-475), so every row is available (ShOpcodes.cpp 201-203). The listing (ShOpcodeFormatter) is not modelled.
* `ElfModel.v`: Importing object files: placing sections and relocating them. Files: Core/ELF/ElfRelocator.cpp (relocateFile 291-469, relocate 471-492), Core/ELF/ElfFile.h (RelocationData 113-123), Archs/MIPS/MipsElfRelocator.cpp 12-77, Archs/ARM/ArmElfRelocator.cpp 12-170, Archs/SuperH/ShElfRelocator.cpp 12-46. Simplified: the object files are given in decoded form; reading the archive and the ELF structures (loadArArchive, ElfFile, init 99-223) is in ElfReadModel.v. Defining the labels of the exported symbols (exportSymbols 225-270) is not modelled; the constructor stubs are in CtorModel.v. The symbol table exists. Labels are looked up by name; [None] is an invalid name or an undefined label. Of the messages only whether there is one is kept. `RUb`: an overflow, a division by zero or an access outside of an array.
* `AsmModel.v`: Model of the commands of a program and of the assembly loop: Commands/*.{h,cpp}, the pool of Archs/ARM/Pool.cpp, Archs/Architecture.cpp, and encodeAssembly and runArmips of Core/Assembler.cpp. A program is the tree of commands the parser builds ([src]); what Validate leaves in the members of a command is kept beside it ([ann]). Names are resolved, so labels are numbers. An expression is any function of the labels and the output position ([view]); what else it uses (constants, input files) is fixed. An instruction is any function of these and of the delay state of the MIPS, giving the units it writes; data directives are any function giving units. Files that are included are not output files of the program. Addresses and sizes of areas are exact integers. Only errors are recorded, whether queued or printed; warnings, notices, line numbers, the temp file and the symbol file are left out, and so is memory mode. An object file is any function of the labels and its address, giving bytes, values of labels and whether an error was queued; ElfModel has what the function does. Not modelled: .loadelf.
* `AsmObjModel.v`: An ELF object imported by a program: what ElfModel says about relocating it, as the [object] of a command of AsmModel. DirectiveObjImport, Commands/CDirectiveFile.cpp 512-549, and getLabel and setValue of Core/ELF/ElfRelocator.cpp 370-388 and 461-462. Labels are numbers in AsmModel and names in ElfModel; [number] is the symbol table, [kinds] whether a label is a data label and its information (both do not change while validating). Simplified: an external symbol that is exported by another file of the same import has the value it has before the import is relocated again; when nothing moves the two are the same. [ctors] has the labels of the sections with constructors (number of the file, index of the section; init, ElfRelocator.cpp 179-190). Without a function for the constructors nothing can refer to them (their names are made up), and they are left out. Of the function itself (Archs/*/*ElfRelocator.cpp, generateCtorStub) the commands before the table are not given here; that it ends with the label of the table and the table is.
* `CondModel.v`: Model of conditional assembly while parsing: the condition stack of Parser/Parser.{h,cpp}, Parser::parseCommandSequence, Parser::parseCommand, and parseDirectiveConditional of Parser/DirectivesParser.cpp; the conditions of equ, macro and function definitions and of the directives that change settings while parsing. The input is a list of statements. What a statement other than a conditional does is any function of the top of the condition stack and of the state of the parser (symbols, macros, settings): the state afterwards, the command if it gives one, and whether no error was printed. Inclusions and macro calls are such statements, since they parse with the same stack. After an error the code goes on with the next statement; so does the model, but it may differ in how much is skipped. Constructs that end with a directive of their own (.area, .autoregion) are statements [TOpen] with a number for the kind; .function is not covered.
* `ArmLineModel.v`: Model of the ARM-mode instruction parser, Archs/ARM/ArmParser.cpp, from the tokens of a line to the word that is written. Tokens and expressions are those of ParseModel.v. The members of [ArmOpcodeVariables] (Archs/ARM/CArmInstruction.h 7-60) have no initializers; a variable that was never written is [None], and reading it in [Encode] is undefined behaviour. All rows of the table that are tried work on the same variables, so what a failing row wrote stays. Simplified: of a register list that fails, and of a mnemonic that does not match, nothing is kept; no later row reads those variables without writing them first.
* `PsxModel.v`: Importing PlayStation object files and libraries. Files: Archs/MIPS/PsxRelocator.cpp (loadPsxLibrary 23-70, loadString 72-83, parseObject 85-324, init 326-391, relocateFile 393-533, relocate 535-556, Validate and Encode 580-592), Archs/MIPS/PsxRelocator.h 14-57, Util/ByteArray.h 39-66. Simplified: a file is the list of its bytes, a name the list of its characters. The names of segments, the file positions of relocations and the records that are skipped are not kept. Labels are a partial map from names in lower case to values; a label that exists but has no value yet is not in it. Whether a name can be a label is a parameter. Of the messages only whether there is one is kept. The check sum of the output is in [AsmModel]. `RUb`: an access behind the end of the bytes, a segment that does not exist, or an overflow of an int. `RErr`: a loop that does not end.
* `ElfReadModel.v`: Reading archives and ELF files. Files: Core/ELF/ElfRelocator.cpp (loadArArchive 31-97, init 99-223, loadRelocation 281-289), Core/ELF/ElfFile.cpp (isSectionPartOf 80-103, addSection 105-117, loadSectionNames 190-218, loadElfHeader 286-303, loadProgramHeader 323-334, loadSectionHeader 336-349, load 351-443, getSymbolCount 499-505, getSymbol 507-523, getStrTableString 525-531). Simplified: a file is the list of its bytes, a name the list of its characters. The order of the parts (determinePartOrder) and of the sections after sorting is not part of what is read here. Of the messages only whether there is one is kept. The name of a symbol is read with the symbol, not at its first use, and in lower case (the original name is only for the symbol files). `RUb`: an access behind the end of the bytes or to a section that does not exist, or an overflow of an int. `RErr`: a loop that does not end.
* `ElfSaveModel.v`: ELF programs: loading, positions, writing and saving. Files: Core/ELF/ElfFile.cpp (ElfSection::writeHeader, writeData, setOffsetBase 39-73, ElfSegment::writeData, writeHeader 119-159, writeToData, sortSections 177-188, ElfFile::writeHeader 305-321, load 351-443, save 445-497), Archs/MIPS/MipsElfFile.cpp (10-260), Util/ByteArray.cpp (append, reserveBytes, alignSize 75-117), Util/ByteArray.h (replaceWord, replaceDoubleWord 62-95), Core/FileManager.cpp (advanceMemory 365-372), Commands/CDirectiveFile.cpp (CDirectivePosition 170-202), Commands/CDirectiveData.cpp (Validate, Encode 311-475). Simplified: a file is the list of its bytes. The results of the two sorts (std::sort is not stable) and the order of the four parts (determinePartOrder 220-273) are any reordering. alignSize appends its zeros at once. setSection, which nothing calls, is left out. Of the messages only whether there is one is kept. `RUb`: an access behind the end of the bytes.
* `CtorModel.v`: Model of the functions generated for the constructors of imported objects: [mipsCtorTemplate], [shCtorTemplate], [ctorTemplate] and the generateCtorStub of the three relocators. Transcribes Archs/MIPS/MipsElfRelocator.cpp 79-135, Archs/SuperH/ShElfRelocator.cpp 51-108 and Archs/ARM/ArmElfRelocator.cpp 172-233, with replaceAll (Util/Util.cpp 240-254) and Parser::parseTemplate (Parser/Parser.cpp 197-219). A template is a text that is parsed like source text. For MIPS and SuperH it is given here as its lines, in the pieces of MipsModel and ShModel; a label is its value. The value is the one the last pass has, so the positions found are those that were used (AsmModel is about the passes). For ARM the text itself is modelled. The table after the code is in AsmObjModel.
* `CliModel.v`: Model of the command line: parseArguments and runFromCommandLine, Main/CommandLineInterface.cpp, and of what runArmips, Core/Assembler.cpp 147-211, does with the equs and labels given there. Simplified: the comparisons of parseArguments are grouped by the number of words an option takes; the names of the options differ, so the order does not matter. Directories are strings, [chdir d n] is fs::current_path(n) with the current directory [d] (None: an error) and [file_exists d n] is fs::exists of the name [n], made absolute. Messages are not kept, apart from whether there was an error; the warning for -time is not one here. The value of an equ is a single line.
* `HalfModel.v`: Half precision immediates (vfim.s): toHalfFloat and fromHalfFloat, Util/Util.cpp 113-212, and what immediateToHalfFloat, Archs/MIPS/CMipsInstruction.cpp 51-68, makes of a value. The fields of the unions are parts of the bits of the number ([float_bits]). Simplified: a NaN is one NaN, its bits are a parameter; in fromHalfFloat the sign of the NaN, which is not kept there either, is left out.
* `VfpuModel.v`: Operands of the vector unit: prefixes, constants and rotations (vpfxs, vpfxt, vpfxd, vcst, vrot). Files: Archs/MIPS/MipsParser.cpp (parseVcstParameter 629-739, parseVfpuVrot 741-848, parseVpfxsParameter 876-974, parseVpfxdParameter 976-1041), Parser/Parser.cpp (TokenSequenceParser 898-954). Simplified: behind the last token of the list nothing matches. What a failing function leaves in [result] is not kept.
* `UfuncModel.v`: Functions defined with .expfunc. Files: Core/ExpressionFunctionHandler.cpp (addUserFunction 114-174, execute 203-209), Parser/Parser.cpp (parseFunctionDeclaration 401-427, checkExpFuncDefinition 429-495), Parser/Tokenizer.cpp (processElement 49-124, registerReplacementString, registerReplacementInteger, registerReplacementFloat 206-245). Simplified: no equ defined after the function occurs in its content (equs known at the definition are replaced there). Functions of the architecture and the built in ones go before user functions, which are refused if the name is taken. Calls deeper than a given bound give an error of their own; the program itself has no bound and ends when the stack does.
* `MacroModel.v`: Macros: .macro definitions, the arguments of calls, and the labels of a macro. File: Parser/Parser.cpp (parseExpressionList 53-98, checkMacroDefinition 497-598, extractMacroParameter 600-666, parseMacroCall 668-786, parseLabel 793-815). Names and replacement of tokens: SymModel.v (macro_label_name) and ExpandModel.v (drain). Simplified: the tokens are those delivered by the tokenizer, after equs are replaced. Labels are looked for at the start of statements only; contents with equ declarations or further macro definitions are left out. The commands a content is parsed to are not part of this file.
* `ThumbLineModel.v`: Model of the Thumb-mode instruction parser, Archs/ARM/ArmParser.cpp, from the tokens of a line to the halfwords that are written. Registers, register lists, immediates and symbols are parsed by the functions of ArmLineModel.v, which both modes share. The members of [ThumbOpcodeVariables] (Archs/ARM/CThumbInstruction.h 7-20) have no initializers: their first values are an argument, and theorems are about all of them. All rows of the table that are tried work on the same variables, so what a failing row wrote stays. Simplified: of a register list that fails nothing is kept.
* `DirModel.v`: Model of the directive table and of the directives that take one line of parameters: Parser::parseDirective and parseExpressionList, Parser/Parser.cpp 53-99 and 221-263, and Parser/DirectivesParser.{h,cpp}. The parameters of a line are given after the expression parser has read them, each with the value it has at that moment; an expression of several tokens never counts as a single name or string. The bodies of .area, .region and .autoregion are left out: the end of the line is then the end of the line that closes the body. Conditionals and .func are not read here (CondModel), nor are the directives of the architectures. The file of .include is not opened here. The effect of a switch or of an architecture directive on the parser is part of the command. No directive of the table has the flag DIRECTIVE_MIPSRESETDELAY.
* `TplModel.v`: Built-in code templates: the texts of the MIPS macros, of the constructor functions of imported objects and of .msg, and the way values are put into them. Modelled: replaceAll (Util/Util.cpp 240-254), the part of Parser::parseTemplate that makes the text (Parser/Parser.cpp 197-215), preprocessMacro (Archs/MIPS/MipsMacros.cpp 52-63), and all texts with variables given to parseTemplate. Texts are lists of characters. Not modelled here: the values, which are parameters (texts of expressions and registers, label names), the choice of the text by a macro (MipsMacroModel has it), the file and line given to the commands, and the parsing of the result.
* `ArchDirModel.v`: Model of the directives of the architectures: the tables and functions of Archs/ARM/ArmParser.cpp 38-109, Archs/MIPS/MipsParser.cpp 130-223 and Archs/SuperH/ShParser.cpp 28-58, read by Parser::parseDirective, Parser/Parser.cpp 221-263. Parameters and lines are those of DirModel. The rows have no flags. The importers are two parameters: whether a file can be read as an ELF file or archive of such, and whether it can be read as PSX library. The code that .msg stands for is in TplModel, that of .loadelf, .pool and the imports in other models. The effect of .thumb, .arm, .resetdelay and .fixloaddelay on the parser is part of the command.
* `ExpModel.v`: The symbols that an import gives to the source: ElfRelocator::exportSymbols, Core/ELF/ElfRelocator.cpp 225-270. The files of an import are taken one after the other, so the symbols are one list; exportSymbols is called once, in the constructors of DirectiveObjImport (Commands/CDirectiveFile.cpp 512-528), so no symbol has a label before. The symbol table is seen at the keys that getLabel uses for the file -1 and the section -1 (Core/SymbolTable.cpp 65-95): for a name without @ this is the table of the global names. Creating a label that is not defined has no effect here.
<!-- modelled:end -->
