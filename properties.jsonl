{"id": "C01", "title": "Integer operators have exact 64-bit semantics and division is total", "statement": "For any two 64-bit integer operands, every integer operator usable in an expression produces the two's-complement 64-bit result a C programmer expects (right shift logical), division and modulo never crash: a zero divisor and INT64_MIN with -1 give the documented fallback value and queue a warning; the only operand pairs on which the host C++ program has no defined behaviour are signed overflow of + - * (and negation of INT64_MIN) and shift counts outside 0..63.", "quantifier": "all pairs of 64-bit integers, all operators", "why_tests_cant": "2^128 operand pairs per operator; the fallback cases and the undefined cases are single points or thin sets in that space", "anchors": ["Core/Expression.cpp: ExpressionValue::operator+ .. operator^, ExpressionInternal::evaluate"]}
{"id": "C02", "title": "Constant folding never changes the value of an expression", "statement": "Evaluating an expression after the assembler's parse-time simplification gives the same value (type and contents), or the same failure, as evaluating the original tree in the same symbol/address state, for every expression tree and every later state of symbols, addresses, endianness and output file (files on disk, CPU mode and the set of functions being those in force when the expression was parsed); an expression that was simplified to a constant evaluates to that constant in every state.", "quantifier": "all expression trees (any depth), all symbol tables, addresses and function environments", "why_tests_cant": "folding decisions depend on arbitrarily nested constness; a test checks individual expressions in individual states", "anchors": ["Core/Expression.cpp: ExpressionInternal::simplify, ExpressionInternal::evaluate, Core/Expression.h: Expression::isConstExpression"]}
{"id": "C03", "title": "Operator precedence and associativity follow C", "statement": "For every expression tree over integers, identifiers, unary and binary operators, parentheses, the conditional operator and calls, writing it with only those parentheses that C's precedence and left-associativity require and parsing the text gives back exactly that tree and consumes exactly that text.", "quantifier": "all expression trees and all continuations of the token stream that cannot extend the expression", "why_tests_cant": "precedence bugs appear only for particular nestings of two or more levels; there are unboundedly many nestings", "anchors": ["Parser/ExpressionParser.cpp: primaryExpression .. conditionalExpression, expression"]}
{"id": "C04", "title": "Malformed expressions are rejected", "statement": "If the expression parser accepts a token sequence, the tokens it consumed spell an expression of the documented grammar whose tree is the one returned (no token is silently dropped).", "quantifier": "all token sequences", "why_tests_cant": "the claim is about all malformed inputs; an unbounded set", "anchors": ["Parser/ExpressionParser.cpp: primaryExpression, postfixExpression, unaryExpression"]}
{"id": "C05", "title": "Printing an expression and parsing it again preserves it", "statement": "The textual form that macros splice into generated code re-parses to an expression with the same value in every state.", "quantifier": "all expression trees and states", "why_tests_cant": "unbounded trees; quoting problems only occur for particular string contents", "anchors": ["Core/Expression.cpp: ExpressionInternal::toString, escapeString, formatFunctionCall"]}
{"id": "C06", "title": "Logical operators yield 0 or 1", "statement": "The operators && || ! == != < <= > >= applied to any two values of valid type yield the integer 0 or the integer 1, and && / || / ! agree with C truthiness of their operands.", "quantifier": "all operand values of type integer, float and string", "why_tests_cant": "type-pair dispatch times all bit patterns", "anchors": ["Core/Expression.cpp: ExpressionValue::operator&&, operator||, operator!"]}
{"id": "C07", "title": "Comparisons are coherent", "statement": "On two integers, two strings or two comparable numbers: exactly one of a<b, a==b, a>b holds (trichotomy), <= is the negation of >, >= the negation of <, != the negation of ==, and < is transitive.", "quantifier": "all pairs/triples of integers and of strings", "why_tests_cant": "infinitely many strings, 2^128 integer pairs", "anchors": ["Core/Expression.cpp: ExpressionValue::operator<, operator<=, operator>, operator>=, operator==, operator!="]}
{"id": "C08", "title": "min and max return an extreme element of their arguments", "statement": "min(..)/max(..) of a non-empty argument list of numbers returns a value that equals one of the arguments (converted to float when any is float) and bounds all of them.", "quantifier": "all argument lists of any length, ints and floats", "why_tests_cant": "unbounded lists and all doubles", "anchors": ["Core/ExpressionFunctions.cpp: expFuncMin, expFuncMax"]}
{"id": "C09", "title": "Symbol scoping: global, static and local names", "statement": "Two references denote the same symbol exactly when they have the same case-insensitive spelling and (global) nothing else, (static @) the same file, (local @@) the same section; definitions in one scope never become visible in, or collide with, another scope.", "quantifier": "all histories of symbol table operations, all names, files and sections", "why_tests_cant": "interaction of arbitrary interleavings of files and sections", "anchors": ["Core/SymbolTable.cpp: setFileSectionValues, getLabel, addEquation, findEquation, symbolExists", "Core/SymbolTable.h: SymbolKey"]}
{"id": "C10", "title": "A name is a label or an equ, never both", "statement": "In any history of symbol table operations, a name visible in a scope is never simultaneously a label and an equ, an equ never changes its replacement while it is visible, and the same lookup always returns the same label object.", "quantifier": "all operation histories", "why_tests_cant": "needs an invariant over arbitrary histories", "anchors": ["Core/SymbolTable.cpp: getLabel, addEquation, symbolExists, findEquation"]}
{"id": "C11", "title": "Generated label names are unique", "statement": "Names produced for anonymous/generated labels in one assembly are pairwise different as symbols (also after case folding) for up to 2^64 generated labels.", "quantifier": "all numbers of generated labels", "why_tests_cant": "2^32 names", "anchors": ["Core/SymbolTable.cpp: getUniqueLabelName"]}
{"id": "C12", "title": "Macro-local labels never collide", "statement": "Labels declared inside macros are renamed so that labels of two different macro expansions never become the same symbol.", "quantifier": "all macro names, label names and expansion counters", "why_tests_cant": "collisions need particular pairs of names", "anchors": ["Core/../Parser/Parser.cpp: macro expansion label renaming in parseMacroCall"]}
{"id": "C13", "title": "equ expansion terminates and is complete", "statement": "Reading tokens through the equ replacement mechanism always terminates; no identifier token delivered to the parser is itself a currently defined equ name unless expansion reported the recursion error; and the delivered tokens equal the one-pass expansion of the source under the definitions in force.", "quantifier": "all token streams and all sequences of equ definitions", "why_tests_cant": "unbounded chains of definitions", "anchors": ["Parser/Tokenizer.cpp: Tokenizer::processElement", "Parser/DirectivesParser.cpp: parseDirectiveEqu / Parser.cpp equ handling", "Core/SymbolTable.cpp: addEquation"]}
{"id": "C14", "title": "Macro argument substitution terminates", "statement": "Expanding a macro call terminates for every macro body and every argument list.", "quantifier": "all macro bodies and argument lists", "why_tests_cant": "non-termination is not observable by finite testing", "anchors": ["Parser/Tokenizer.cpp: registerReplacement, processElement", "Parser/Parser.cpp: parseMacroCall"]}
{"id": "C15", "title": "Conditional assembly selects exactly the branch C semantics would", "statement": "For arbitrarily nested .if/.elseif/.else/.endif chains whose conditions are known at parse time the commands kept are exactly those of the first true branch at every level, and the condition bookkeeping is balanced after every construct.", "quantifier": "all nestings, all condition outcomes", "why_tests_cant": "exponentially many nestings", "anchors": ["Parser/Parser.cpp: pushConditionalResult, popConditionalResult, isInsideTrueBlock", "Parser/DirectivesParser.cpp: parseDirectiveConditional", "Commands/CommandSequence / CAssemblerCommand Conditional: Commands/CDirectiveConditional.cpp"]}
{"id": "C16", "title": "Number literals denote the number that is written", "statement": "Decimal, 0x, 0o, 0b, h/o/b-suffixed literals parse to exactly the number their digits denote (modulo 2^64) and literals with a digit outside the base are rejected.", "quantifier": "all digit strings of any length in any supported notation", "why_tests_cant": "unbounded strings", "anchors": ["Util/Util.cpp: stringToInt", "Parser/Tokenizer.cpp: convertInteger"]}
{"id": "C17", "title": "Memory address and file address stay in step", "statement": "At every point of any history of open/close/seek/org/orga/headersize/write/skip operations the memory address equals the file address plus the header size in force, the file address is never negative while a file is open, and a rejected seek changes nothing.", "quantifier": "all histories of file manager operations", "why_tests_cant": "arbitrary interleavings", "anchors": ["Core/FileManager.cpp: GenericAssemblerFile::*, FileManager::*"]}
{"id": "C18", "title": "Writes are byte-exact in the selected endianness", "statement": "Writing an n-byte unit changes exactly n bytes of the open output file, at the current file address, to the big- or little-endian representation of the value modulo 256^n, leaves every other byte (and every other file) as it was and advances both addresses by n.", "quantifier": "all values, sizes 1/2/4/8, both endiannesses, all file contents and positions", "why_tests_cant": "2^64 values times all contents", "anchors": ["Core/FileManager.cpp: FileManager::writeU8/U16/U32/U64, swapEndianness*, GenericAssemblerFile::write"]}
{"id": "C19", "title": "Accepted programs are laid out consistently: labels are where the code is", "statement": "If assembly succeeds, then when the output is being written every label's value equals the memory address at which the output position is when the label's position in the program is reached, every command is written at exactly the address the last validation pass computed for it, and commands occupy exactly the size computed.", "quantifier": "all programs (command trees), all label dependency patterns, any number of validation passes", "why_tests_cant": "layout is a fixpoint over an unbounded number of passes; order-dependent bugs only show for particular dependency patterns", "anchors": ["Core/Assembler.cpp: encodeAssembly", "Commands/*: Validate/Encode", "Commands/CAssemblerLabel.cpp"]}
{"id": "C20", "title": "No output on error; the validation loop terminates", "statement": "encodeAssembly performs at most 100 validation passes; if any error was reported by parsing or by the last validation pass then no output file is created, opened or modified and assembly reports failure.", "quantifier": "all programs, all validation behaviours", "why_tests_cant": "universally quantified over programs, including ones that never stabilise", "anchors": ["Core/Assembler.cpp: encodeAssembly, runArmips", "Core/Common/Logger: Logger::queueError, printQueue, hasError"]}
{"id": "C21", "title": "Encode advances by what Validate promised", "statement": "For every command kind, after a validation pass that reported no change in a given state, encoding from the same state moves the output position by exactly the validated amount and writes exactly that many bytes (or skips).", "quantifier": "all commands, states", "why_tests_cant": "all states", "anchors": ["Commands/*: Validate, Encode", "Archs/*/C*Instruction.cpp: Validate, Encode"]}
{"id": "C22", "title": ".align/.aligna/.fill/.skip are exact", "statement": "After .align n the memory address (resp. .aligna the file address) is the least multiple of n not below the previous address, the gap is filled with the fill byte only; .fill n writes exactly n copies of the byte.", "quantifier": "all addresses, all alignments, all fill values", "why_tests_cant": "2^64 addresses x sizes", "anchors": ["Commands/CDirectiveFile.cpp: CDirectiveAlignFill::Validate, Encode; CDirectiveSkip"]}
{"id": "C23", "title": "Areas: contents never exceed the declared size, padding is exact", "statement": "If assembly of an .area succeeds then its contents (including allocated sub-areas) lie within [start,start+size); with a fill value every remaining byte is the fill byte, nothing outside the area is written, and the position afterwards is the end of the area.", "quantifier": "all area sizes, contents and nested usage", "why_tests_cant": "all contents", "anchors": ["Commands/CDirectiveArea.cpp: CDirectiveArea::Validate, Encode", "Core/Allocations.cpp"]}
{"id": "C24", "title": "Automatically placed regions never overlap", "statement": "All blocks placed by .autoregion in one validation pass are inside the free part of the region that hosts them, pairwise disjoint and disjoint from the region's own contents.", "quantifier": "all sets of regions, block sizes and request orders", "why_tests_cant": "bin-packing over arbitrary histories", "anchors": ["Core/Allocations.cpp: Allocations::allocateSubArea, getSubAreaUsage, setArea", "Commands/CDirectiveArea.cpp: CDirectiveAutoRegion::Validate"]}
{"id": "C25", "title": "Automatically placed regions respect the requested address range", "statement": "A block placed by .autoregion min,max starts at an address between min and max.", "quantifier": "all regions, requests and ranges", "why_tests_cant": "needs particular interaction of a previous placement with a changed range", "anchors": ["Core/Allocations.cpp: Allocations::allocateSubArea"]}
{"id": "C26", "title": "Data directives emit exactly the listed values", "statement": ".byte/.halfword/.word/.dword/.float/.double/.ascii with any argument list emit, in order, each argument's encoding in the unit size and selected endianness (strings one unit per character), the emitted size equals the size computed by validation, and out-of-subset characters are an error.", "quantifier": "all argument lists", "why_tests_cant": "unbounded lists and values", "anchors": ["Commands/CDirectiveData.cpp: CDirectiveData::Validate, Encode, encodeNormal, encodeCustom, getUnitSize, getDataSize"]}
{"id": "C27", "title": "Custom encodings use the longest matching table entry", "statement": "Encoding a string with a loaded table splits it greedily: at every position the longest table entry that is a prefix of the remaining text is used and the bytes most recently given for that entry are emitted; if some position matches no entry the encoding fails rather than emitting partial text.", "quantifier": "all tables (any insertion history), all strings", "why_tests_cant": "all tables and all strings", "anchors": ["Util/EncodingTable.cpp: EncodingTable::encodeString, Trie::insert, Trie::findLongestPrefix"]}
{"id": "C28", "title": "Loading a table replaces the previous table", "statement": "After .loadtable the result of encoding depends only on the table loaded last.", "quantifier": "all sequences of table loads", "why_tests_cant": "needs particular pairs of tables", "anchors": ["Util/EncodingTable.cpp: EncodingTable::load, clear"]}
{"id": "C29", "title": "UTF-8 decoding inverts encoding", "statement": "Converting any code point up to U+FFFF to UTF-8 and reading it back yields that code point; distinct code points have distinct, prefix-free encodings; reading consumes exactly the bytes written.", "quantifier": "all code points below 0x10000 and all following text", "why_tests_cant": "all continuations; finite but context-dependent", "anchors": ["Util/FileClasses.cpp: TextFile::readCharacter", "Util/Util.cpp: convertUnicodeCharToUtf8"]}
{"id": "C30", "title": "Checksums equal their bitwise definition", "statement": "getCrc16/getCrc32 of any byte sequence equal the bit-serial CRC with the standard polynomials and initial values, and any single-byte change changes the checksum.", "quantifier": "all byte sequences of any length", "why_tests_cant": "unbounded inputs", "anchors": ["Util/CRC.cpp: getCrc16, getCrc32, getChecksum"]}
{"id": "C31", "title": "ARM immediates: encoding is sound, complete and canonical", "statement": "A 32-bit constant is accepted as an ARM data-processing immediate exactly when it is an 8-bit value rotated right by an even amount; the emitted rotation/byte pair denotes exactly that constant and uses the smallest rotation.", "quantifier": "all 2^32 constants", "why_tests_cant": "2^32 values", "anchors": ["Archs/ARM/CArmInstruction.cpp: getShiftedImmediate, Encode"]}
{"id": "C32", "title": "ARM opcode substitution preserves the instruction's meaning", "statement": "When an immediate is not encodable and the assembler substitutes the complementary opcode (mov/mvn, and/bic, cmp/cmn, add/sub) the substituted instruction computes the same register result and (for add/sub/cmp/cmn) the same flags as the instruction that was written, for all register contents.", "quantifier": "all immediates, register values and flag inputs", "why_tests_cant": "2^64 combinations", "anchors": ["Archs/ARM/CArmInstruction.cpp: CArmInstruction::Validate (optimize section)", "Archs/ARM/ArmOpcodes.cpp"]}
{"id": "C33", "title": "ARM branches reach the address that was written", "statement": "For every accepted ARM b/bl/blx branch, decoding the emitted word at the address where it was emitted yields exactly the requested target (modulo 2^32).", "quantifier": "all instruction addresses and targets", "why_tests_cant": "2^64 address pairs", "anchors": ["Archs/ARM/CArmInstruction.cpp: CArmInstruction::Validate, Encode"]}
{"id": "C34", "title": "Thumb branches reach the address that was written", "statement": "For every accepted Thumb conditional/unconditional/long branch, decoding the emitted halfword(s) at the address where they were emitted yields exactly the requested target.", "quantifier": "all instruction addresses and targets", "why_tests_cant": "2^64 address pairs", "anchors": ["Archs/ARM/CThumbInstruction.cpp: CThumbInstruction::Validate, Encode"]}
{"id": "C35", "title": "MIPS branches and jumps reach the address that was written", "statement": "For every accepted MIPS branch or jump, decoding the emitted word at its address yields exactly the requested target.", "quantifier": "all instruction addresses and targets", "why_tests_cant": "failures are single displacements at the end of the range", "anchors": ["Archs/MIPS/CMipsInstruction.cpp: CMipsInstruction::Validate, encodeNormal"]}
{"id": "C36", "title": "SuperH branches and pc-relative loads reach the address that was written", "statement": "For every accepted SuperH branch or pc-relative load, decoding the emitted halfword at its address yields exactly the requested target; every representable target is accepted.", "quantifier": "all instruction addresses and targets", "why_tests_cant": "2^64 address pairs", "anchors": ["Archs/SuperH/CShInstruction.cpp: CShInstruction::Validate, Encode"]}
{"id": "C37", "title": "ARM shift operands are encoded as written", "statement": "Every accepted constant shift (LSL/LSR/ASR/ROR/RRX #n) is encoded so that decoding the shift type and amount fields gives back the shift that was written and no other field of the instruction is disturbed.", "quantifier": "all shift types, all amounts, all registers", "why_tests_cant": "amount 32 is special for each type", "anchors": ["Archs/ARM/CArmInstruction.cpp: CArmInstruction::Validate/Encode shift handling"]}
{"id": "C38", "title": "Literal pools: every ldr =value loads its value", "statement": "If assembly succeeds, each pending `ldr rX,=value` (ARM and Thumb) addresses a pool slot in which exactly that 32-bit value is written, pools never contain a slot that no instruction uses, identical values share a slot, and no literal is left without a pool.", "quantifier": "all sequences of literal requests and pool placements", "why_tests_cant": "arbitrary request lists", "anchors": ["Archs/ARM/Pool.cpp: ArmPoolCommand::Validate, Encode", "Archs/ARM/CArmInstruction.cpp: setPoolAddress", "Archs/ARM/CThumbInstruction.cpp: setPoolAddress", "Archs/ARM/Arm.cpp"]}
{"id": "C39", "title": "ARM coprocessor operands do not disturb one another", "statement": "In every accepted coprocessor instruction each operand lands in its own field and no operand changes bits outside its field.", "quantifier": "all operand values", "why_tests_cant": "all operand values including negative ones", "anchors": ["Archs/ARM/CArmInstruction.cpp: CArmInstruction::Validate, Encode"]}
{"id": "C40", "title": "MIPS operands do not disturb one another", "statement": "In every accepted MIPS instruction (including ext/ins) each operand lands in its own field and no operand changes bits outside its field.", "quantifier": "all operand values", "why_tests_cant": "all operand values including negative ones", "anchors": ["Archs/MIPS/CMipsInstruction.cpp: CMipsInstruction::Validate, encodeNormal"]}
{"id": "C41", "title": "SuperH operands do not disturb one another", "statement": "In every accepted SuperH instruction each operand lands in its own field and no operand changes bits outside its field; distinct instructions have distinct encodings.", "quantifier": "all opcodes of the table and all operand values", "why_tests_cant": "all operand values including negative ones", "anchors": ["Archs/SuperH/CShInstruction.cpp: CShInstruction::Validate, Encode", "Archs/SuperH/ShOpcodes.cpp"]}
{"id": "C42", "title": "MIPS immediates are encoded faithfully", "statement": "An accepted immediate is represented in the instruction so that the processor's interpretation (sign- or zero-extension as the instruction defines) equals the value that was written.", "quantifier": "all 64-bit immediates, all immediate widths", "why_tests_cant": "all values", "anchors": ["Archs/MIPS/CMipsInstruction.cpp: CMipsInstruction::Validate (immediate range check)"]}
{"id": "C43", "title": "hi()/lo() recombine", "statement": "(hi(x) << 16) + lo(x) = x modulo 2^32 with lo in the signed 16-bit range, for every value; hence lui/addiu and lui/load-offset pairs address x exactly.", "quantifier": "all 64-bit values", "why_tests_cant": "2^64 values", "anchors": ["Archs/MIPS/MipsExpressionFunctions.cpp: expFuncHi, expFuncLo"]}
{"id": "C44", "title": "The li / li.u+li.l / la macros load the requested constant", "statement": "Executing the instructions that `li rX,imm` expands to (or li.u followed by li.l) from any machine state leaves imm modulo 2^32 in rX and changes no other register.", "quantifier": "all immediates accepted by the macro, all machine states, all target registers except r0", "why_tests_cant": "2^32 immediates times machine states", "anchors": ["Archs/MIPS/MipsMacros.cpp: generateMipsMacroLi"]}
{"id": "C45", "title": "Load/store address macros access the requested address", "statement": "`lw rX,address` (and all load/store variants, with .u/.l halves) performs exactly one access of the right kind at address modulo 2^32, transfers rX's own value (stores) or overwrites only rX (loads).", "quantifier": "all addresses, registers, machine states", "why_tests_cant": "2^32 addresses times machine states", "anchors": ["Archs/MIPS/MipsMacros.cpp: generateMipsMacroLoadStore"]}
{"id": "C46", "title": "MIPS set-on-comparison macros compute the comparison", "statement": "seq/sne/sge/sgt/sle/slt (signed and unsigned) with register or immediate operands leave 1 in rd exactly when the comparison holds of the original operand values, else 0, and change no other register except the assembler temporary.", "quantifier": "all register assignments (excluding the reserved assembler temporary), all values and immediates", "why_tests_cant": "all aliasing patterns of registers times all values", "anchors": ["Archs/MIPS/MipsMacros.cpp: generateMipsMacroSet"]}
{"id": "C47", "title": "MIPS conditional branch macros branch exactly when the comparison holds", "statement": "beq/bne/blt/ble/bgt/bge (signed, unsigned, likely) macros with register or immediate operands branch exactly when the comparison of the operand values holds and change no register but the assembler temporary.", "quantifier": "all register assignments (excluding the assembler temporary), all values and immediates", "why_tests_cant": "all values and immediates", "anchors": ["Archs/MIPS/MipsMacros.cpp: generateMipsMacroBranch"]}
{"id": "C48", "title": "MIPS rotate and abs macros compute what they name", "statement": "rol/ror (register and immediate) rotate and abs gives the absolute value modulo 2^32, changing only rd and the assembler temporary, for all operands not using the assembler temporary.", "quantifier": "all values, amounts, register assignments", "why_tests_cant": "all values and aliasing patterns", "anchors": ["Archs/MIPS/MipsMacros.cpp: generateMipsMacroRotate, generateMipsMacroAbs"]}
{"id": "C49", "title": "MIPS unaligned access macros access the unaligned value", "statement": "ulh/ulhu/ulw load and ush/usw store the unaligned little-endian halfword/word at the given address.", "quantifier": "all addresses, memory contents, register values", "why_tests_cant": "all memory contents; sign bits of individual bytes matter", "anchors": ["Archs/MIPS/MipsMacros.cpp: generateMipsMacroLoadUnaligned, generateMipsMacroStoreUnaligned"]}
{"id": "C50", "title": "MIPS ELF relocation computes symbol addresses", "statement": "After relocation of an imported object HI16/LO16 pairs materialise addend+symbol address modulo 2^32, R_MIPS_26 and R_MIPS_32 fields hold the intended address; mismatched pairs are rejected.", "quantifier": "all symbol addresses, addends, sequences of relocations", "why_tests_cant": "all address/addend combinations and relocation orders", "anchors": ["Archs/MIPS/MipsElfRelocator.cpp: MipsElfRelocator::relocateOpcode"]}
{"id": "C51", "title": "ARM ELF relocation computes symbol addresses", "statement": "After relocation of an imported object, ABS32 words and CALL/JUMP24/THM_CALL branches decode to the symbol address plus addend, switching instruction set exactly when required.", "quantifier": "all symbol addresses, addends, instruction addresses", "why_tests_cant": "all address/addend combinations", "anchors": ["Archs/ARM/ArmElfRelocator.cpp: ArmElfRelocator::relocateOpcode"]}
{"id": "C52", "title": "SuperH ELF relocation computes symbol addresses", "statement": "DIR32 words hold addend plus symbol address and REL32 words the pc-relative difference modulo 2^32.", "quantifier": "all symbol addresses, addends, instruction addresses", "why_tests_cant": "all address/addend combinations", "anchors": ["Archs/SuperH/ShElfRelocator.cpp: SuperHElfRelocator::relocateOpcode"]}
{"id": "C53", "title": "Imported ELF sections are placed aligned and disjoint", "statement": "Sections of imported objects are placed in order at addresses that satisfy their alignment, never overlap, and the import's total size covers them all.", "quantifier": "all section lists", "why_tests_cant": "all lists", "anchors": ["Core/ELF/ElfRelocator.cpp: ElfRelocator::relocate"]}
{"id": "C54", "title": "Symbol output records each address/label once and closes functions correctly", "statement": "After any sequence of label/data/function notifications the exported symbol list contains each (address,name) exactly once, sorted by address, and each closed function's size is the distance between its start and end notifications.", "quantifier": "all notification sequences", "why_tests_cant": "all histories", "anchors": ["Core/SymbolData.cpp: SymbolData::addLabel, startFunction, endFunction, writeNocashSym"]}
{"id": "C55", "title": "Logger: errors are never lost", "statement": "Once an error (or a fatal error, or a warning when warnings are errors) is printed or flushed from the queue, hasError stays true until the run is reset; queued messages of an abandoned pass have no effect; suppression of output does not suppress error status; equal suppress/unsuppress calls restore the level.", "quantifier": "all histories of logger operations", "why_tests_cant": "all histories", "anchors": ["Core/Common / Core/Misc.cpp: Logger::printError, queueError, printQueue, setErrorOnWarning, suppressErrors"]}
{"id": "C56", "title": "Byte buffers behave like arrays", "statement": "Any sequence of append/insert-zero/replace/truncate operations on a byte buffer leaves exactly the bytes the abstract sequence has; word accessors are little/big-endian inverses of the replacing functions.", "quantifier": "all operation sequences and values", "why_tests_cant": "all histories", "anchors": ["Util/ByteArray.cpp: ByteArray::append, appendByte, replaceWord, getWord, left, mid, reserveBytes"]}
{"id": "C57", "title": "PSX load-delay detection inserts exactly the required nops", "statement": "With .fixloaddelay, after assembling any straight-line instruction sequence no instruction reads a register that the immediately preceding emitted load writes; without it the output is unchanged and a warning is issued for each such pair.", "quantifier": "all instruction sequences", "why_tests_cant": "all sequences", "anchors": ["Archs/MIPS/CMipsInstruction.cpp: CMipsInstruction::Validate (load delay), Archs/MIPS/Mips.cpp: CMipsArchitecture"]}
{"id": "C58", "title": "Text files: line structure is preserved for all newline conventions", "statement": "Reading a text file line by line yields the same lines whether they are terminated by LF or CRLF, and no character of the file is lost.", "quantifier": "all file contents", "why_tests_cant": "all contents", "anchors": ["Util/FileClasses.cpp: TextFile::readCharacter, readLine"]}
{"id": "C59", "title": "Generated label names never coincide with a label the user wrote", "statement": "A label name produced by the assembler for its own use never denotes the same symbol as a label that appears in the source.", "quantifier": "all histories of user definitions and generated labels", "why_tests_cant": "the clash depends on the number of labels generated before and on arbitrary user names", "anchors": ["Core/SymbolTable.cpp: SymbolTable::getUniqueLabelName, getLabel"]}
{"id": "C60", "title": "Overlapping areas are reported", "statement": "If the contents of two .area/.region blocks of the same output file cover a common address, a warning is issued.", "quantifier": "all sets of areas, their sizes, contents and sub-areas", "why_tests_cant": "the detection is one sweep over a sorted map with a moving window; nesting and partial overlaps combine without bound", "anchors": ["Core/Allocations.cpp: Allocations::validateOverlap, setArea, getSubAreaUsage"]}
{"id": "C61", "title": "Automatic placement fails only when there is no room", "statement": "The error that no space is available for an .autoregion is issued only if no region of the file has a free range of the required size inside the requested address range.", "quantifier": "all regions, earlier placements, sizes and ranges", "why_tests_cant": "bin-packing over arbitrary histories", "anchors": ["Core/Allocations.cpp: Allocations::allocateSubArea"]}
{"id": "C62", "title": "Thumb instructions decode to the operands that were written", "statement": "Every accepted Thumb instruction other than a branch is emitted as a halfword which, decoded by the instruction set description, is the written operation with the written registers, register list and number; a combination the instruction set cannot express is refused.", "quantifier": "all table rows, all registers and register lists, all values, all instruction addresses", "why_tests_cant": "the product of forms, registers and values is far beyond enumeration, and out-of-range values must be refused for every form", "anchors": ["Archs/ARM/CThumbInstruction.cpp: CThumbInstruction::Validate, Encode", "Archs/ARM/ThumbOpcodes.cpp: ThumbOpcodes", "Archs/ARM/ArmParser.cpp: parseThumbParameters, parseRegisterList"]}
{"id": "C63", "title": "String literals denote the characters written between the quotes", "statement": "A double-quoted literal in which every quote and backslash of the intended text is preceded by a backslash is tokenized to exactly the intended text, and whatever follows the closing quote is tokenized next; an unterminated literal is never taken for a string.", "quantifier": "all texts and all continuations of the line", "why_tests_cant": "the texts are unbounded and escapes interact with the search for the closing quote", "anchors": ["Parser/Tokenizer.cpp: FileTokenizer::loadToken"]}
{"id": "C64", "title": "Blanks and comments mean nothing", "statement": "Any number of spaces, tabs and closed block comments (also over several lines) before a token can be removed without changing the tokens; a line comment means the same as the end of the line; and nothing that is not a blank or a comment is skipped.", "quantifier": "all files, all positions in them, all comment texts", "why_tests_cant": "comment texts and their interaction with ends of lines, stars and slashes are unbounded", "anchors": ["Parser/Tokenizer.cpp: FileTokenizer::skipWhitespace, FileTokenizer::init"]}
{"id": "C65", "title": "Lines are tokenized independently of the lines before them", "statement": "The tokens of two parts of a file put together are the tokens of the first part followed by those of the second.", "quantifier": "all files divided at any line", "why_tests_cant": "the tokenizer carries state from line to line; which texts leave it in a state that matters is a question about all texts", "anchors": ["Parser/Tokenizer.cpp: FileTokenizer::init, FileTokenizer::loadToken"]}
{"id": "C66", "title": "The tokenizer survives every input", "statement": "For every input file the tokenizer ends, without undefined behaviour and without an exception, with a list of tokens in which errors are marked.", "quantifier": "all files", "why_tests_cant": "a claim about every sequence of bytes", "anchors": ["Parser/Tokenizer.cpp: FileTokenizer::init, FileTokenizer::loadToken, FileTokenizer::skipWhitespace, decodeUtf8Character", "Util/Util.cpp: stringToInt"]}
{"id": "C67", "title": "Different MIPS instructions have different encodings", "statement": "Two accepted lines for the same MIPS processor that produce the same instruction word name the same instruction or documented synonyms of one instruction (such as beq and beqz).", "quantifier": "all pairs of accepted lines on every supported processor", "why_tests_cant": "the table has about 700 rows with overlapping operand fields; tests check single rows, not that no operands of one row reach the encoding of another", "anchors": ["Archs/MIPS/MipsOpcodes.cpp: MipsOpcodes", "Archs/MIPS/CMipsInstruction.cpp: encodeNormal, encodeVfpu", "Archs/MIPS/MipsParser.cpp: MipsParser::parseOpcode"]}
{"id": "C68", "title": "SuperH operands mean what is written", "statement": "The immediate or displacement of an accepted SuperH instruction is, when the instruction is executed, the number that was written, and an operand written as @rN is a memory operand; numbers the instruction cannot represent are rejected.", "quantifier": "all immediates, displacements and instructions", "why_tests_cant": "a field is sign extended or not depending on the instruction; the suite tests a handful of values per form and no rejected ones near the boundary", "anchors": ["Archs/SuperH/CShInstruction.cpp: CShInstruction::Validate, Encode", "Archs/SuperH/ShParser.cpp: parseRegister, parseParameters"]}
{"id": "C69", "title": "Exported symbols of imported objects name the imported object", "statement": "After importing object files every global or weak defined symbol has as value the address at which the thing it names was placed, the same address that references to it in the imported code use.", "quantifier": "all object files, symbols and import addresses", "why_tests_cant": "a claim about every layout of sections and symbols; the suite imports a single object", "anchors": ["Core/ELF/ElfRelocator.cpp: ElfRelocator::relocateFile, ElfRelocator::exportSymbols"]}
{"id": "C70", "title": "What is in force at a point of the program depends only on what precedes it", "statement": "The byte order in which numbers are written and the table with which text is encoded at a point of the program are those set by the directives before that point; directives that come later have no influence on it.", "quantifier": "all programs, any number of validation passes", "why_tests_cant": "a claim about every order of directives and every number of passes; unit tests set table and architecture first", "anchors": ["Core/Assembler.cpp: encodeAssembly", "Commands/CDirectiveData.cpp: TableCommand::Validate, CDirectiveData::encode", "Commands/CommandSequence.cpp", "Archs/Architecture.cpp: ArchitectureCommand::Validate"]}
{"id": "C71", "title": "A branch that is not taken leaves no trace", "statement": "Whatever stands in a branch of a conditional that is not taken has no influence on how the rest of the program is read and assembled: definitions there are not made, settings are not changed, and the text there does not make assembly fail as long as it can be read.", "quantifier": "all nestings of conditionals, all statements in the branches not taken", "why_tests_cant": "a claim about every statement in every skipped context; the suite skips only instructions and data", "anchors": ["Parser/Parser.cpp: parseCommandSequence, checkEquLabel, checkMacroDefinition, checkExpFuncDefinition, parseMacroCall", "Parser/DirectivesParser.cpp: parseDirectiveArmArch, parseDirectiveNocash, parseDirectiveRelativeInclude, parseDirectiveErrorWarning", "Archs/ARM/ArmParser.cpp: parseDirectiveThumb, parseDirectiveArm"]}
{"id": "C72", "title": "Every conditional is closed", "statement": "Text that is accepted is well nested: every .if/.ifdef/.ifndef has its .endif, with at most one .else after all .elseif branches, and conditionals do not cross the ends of areas or of included files and macros.", "quantifier": "all texts", "why_tests_cant": "a claim about every malformed nesting; a test can only try some", "anchors": ["Parser/Parser.cpp: parseCommandSequence", "Parser/DirectivesParser.cpp: parseDirectiveConditional, parseDirectiveArea"]}
{"id": "C73", "title": "ARM mnemonics are read in one way", "statement": "An ARM mnemonic with its suffixes (condition, s, addressing mode, halfword selectors) is recognized for exactly the operations whose name it spells, with the suffixes that are spelled; no text spells two different operations or one operation with different suffixes.", "quantifier": "all texts, all rows of the ARM instruction table", "why_tests_cant": "names and suffixes overlap (bls, bleq, ldmls, smlalbb); a test shows that a text is read as intended but not that no other reading exists", "anchors": ["Archs/ARM/ArmParser.cpp: decodeCondition, decodeAddressingMode, decodeXY, decodeS, decodeArmOpcode", "Archs/ARM/ArmOpcodes.cpp: ArmOpcodes"]}
{"id": "C74", "title": "ARM operands are read as they are laid out", "statement": "An ARM line is read, without undefined behaviour, as the first row of the instruction table whose operand syntax it fits, with the operands in the places of that syntax, and rejected if it fits none; it fits a row in one way only, nothing is left over from rows that were tried before, names of registers are registers and not labels, and no text is ignored.", "quantifier": "all lines", "why_tests_cant": "a claim about every sequence of tokens against every row; the suite has one line for most rows and no malformed ones", "anchors": ["Archs/ARM/ArmParser.cpp: parseArmOpcode, parseArmParameters, parseRegister, parseRegisterList, parsePsrTransfer, parseImmediate, parseShift, parsePseudoShift, matchSymbol", "Archs/ARM/ArmOpcodes.cpp: ArmOpcodes"]}
{"id": "C75", "title": "An ARM line becomes the instruction it names", "statement": "From the tokens of an ARM line to the word: if the line is assembled, the 32-bit word decodes, by the ARM architecture manual, to the instruction that the line names, with the registers, flags, shifts, offsets, branch targets and constants that are written, and every such line whose operands the instruction can represent is assembled; otherwise there is an error and no undefined behaviour.", "quantifier": "all lines, all rows, all operand values, all word addresses and literal pool positions", "why_tests_cant": "the table has several hundred rows with overlapping bit fields, and acceptance depends on 32-bit values and distances; tests cover single values of single rows", "anchors": ["Archs/ARM/ArmParser.cpp: parseArmOpcode, parseArmParameters", "Archs/ARM/CArmInstruction.cpp: CArmInstruction::Validate, CArmInstruction::Encode", "Archs/ARM/ArmOpcodes.cpp: ArmOpcodes", "Archs/ARM/Pool.cpp"]}
{"id": "C76", "title": "Imported objects are relocated to where they are written, and the program refers to them there", "statement": "If a program that imports an object file is assembled successfully, the object's data in the output is the object relocated to exactly the address it is written at, with the final values of the labels it refers to; and wherever the program uses a symbol of the object, before or after the import, it uses the address at which the symbol is in the output. The table of constructors in the function given to .importobj has the addresses of the constructor sections in the output.", "quantifier": "all programs, all positions of the import in them, all object files with sound sections, any number of validation passes", "why_tests_cant": "the object's address depends on labels that depend on the object; stale values only show for particular dependency patterns", "anchors": ["Commands/CDirectiveFile.cpp: DirectiveObjImport", "Core/ELF/ElfRelocator.cpp: relocate, relocateFile, exportSymbols", "Core/Assembler.cpp: encodeAssembly"]}
{"id": "C77", "title": "PlayStation objects and libraries are read as written", "statement": "Reading a complete PlayStation object file gives exactly the segments with their data and relocations and the symbols that its records describe; a library gives its members with their names and contents, in order, and a single object stands for itself.", "quantifier": "all sequences of records, all contents of records, all libraries of objects", "why_tests_cant": "relocations are relative to the last data record and to the selected segment, so what a record means depends on all records before it; the suite has no PlayStation object", "anchors": ["Archs/MIPS/PsxRelocator.cpp: loadPsxLibrary, PsxRelocator::loadString, PsxRelocator::parseObject"]}
{"id": "C78", "title": "Damaged PlayStation objects are refused", "statement": "Whatever is in a file given to the PlayStation import, reading it ends, without undefined behaviour, either with the contents of the object or with a refusal.", "quantifier": "all files", "why_tests_cant": "a claim about every sequence of bytes", "anchors": ["Archs/MIPS/PsxRelocator.cpp: loadPsxLibrary, PsxRelocator::parseObject"]}
{"id": "C79", "title": "PlayStation objects are placed without overlap and their labels are the addresses of what they name", "statement": "The segments and the areas without data of all imported objects stand one behind the other from the import address on, each at a multiple of 4 and none overlapping another; bytes that no relocation covers are those of the object; the number of bytes written is the number reserved; and the label of each symbol is the address of the segment or area that it is in, plus its offset.", "quantifier": "all imports of objects, all addresses", "why_tests_cant": "addresses depend on all segments and areas before, of all objects before", "anchors": ["Archs/MIPS/PsxRelocator.cpp: PsxRelocator::relocateFile, PsxRelocator::relocate"]}
{"id": "C80", "title": "PlayStation relocations refer to final addresses", "statement": "In the output of a finished import every relocated word is for the final address of the symbol or place in a segment that the relocation names, plus its displacement: words are increased by it, calls jump to it, and the halves of an instruction pair together give it, with the carry from the sign extended lower half.", "quantifier": "all objects, all relocations, all addresses", "why_tests_cant": "the carry of the upper half depends on the final address, and pairs are found through a sort; a test shows single addresses", "anchors": ["Archs/MIPS/PsxRelocator.cpp: PsxRelocator::relocateFile, PsxRelocator::relocate"]}
{"id": "C81", "title": "Sound PlayStation objects are accepted", "statement": "An object whose symbols are all known, whose relocations are inside their segments and whose upper halves have lower halves for the same address is imported without an error.", "quantifier": "all sound objects, all import addresses for which the addresses fit", "why_tests_cant": "a claim that no sound object is refused; tests show that some are not", "anchors": ["Archs/MIPS/PsxRelocator.cpp: PsxRelocator::init, PsxRelocator::relocateFile"]}
{"id": "C82", "title": "Names defined twice in a PlayStation import are reported", "statement": "A name that an imported PlayStation object defines and that is defined already, by the program or by another object of the import, is reported as an error.", "quantifier": "all imports, all labels of the program", "why_tests_cant": "a claim about every pair of definitions", "anchors": ["Archs/MIPS/PsxRelocator.cpp: PsxRelocator::init, PsxRelocator::relocateFile"]}
{"id": "C83", "title": "Archives are read as their object members", "statement": "Importing an archive takes exactly its ELF members, in order, each with its name without the closing slash and exactly its bytes; other members are left out, and a file that is no archive stands for itself.", "quantifier": "all archives, all member names that fit, all member sizes and contents", "why_tests_cant": "the position of each member depends on the sizes and the padding of all before; the suite has one archive", "anchors": ["Core/ELF/ElfRelocator.cpp: loadArArchive"]}
{"id": "C84", "title": "ELF objects are read as what their file says", "statement": "Importing an ELF object takes exactly its allocated sections with their type, size, alignment, data and all their relocations, its symbols with the names in the string table that the symbol table refers to, and its constructor sections, in both byte orders.", "quantifier": "all relocatable files without segments, all orders and places of sections, all relocations and symbols, both byte orders", "why_tests_cant": "a claim about every layout of a file and every field of every structure in it; the suite reads a few objects of one compiler", "anchors": ["Core/ELF/ElfFile.cpp: ElfFile::load, ElfFile::loadElfHeader, ElfFile::loadSectionHeader, ElfFile::loadSectionNames, ElfFile::getSymbol", "Core/ELF/ElfRelocator.cpp: ElfRelocator::init, ElfRelocator::loadRelocation"]}
{"id": "C85", "title": "Files that cannot be imported are refused", "statement": "A file that is no archive and no ELF file, an object that is not relocatable, is for another machine or has the other byte order, an archive with such an object, and a damaged file are refused with an error; reading always ends and without undefined behaviour.", "quantifier": "all files", "why_tests_cant": "a claim about every sequence of bytes", "anchors": ["Core/ELF/ElfRelocator.cpp: loadArArchive, ElfRelocator::init", "Core/ELF/ElfFile.cpp: ElfFile::load"]}
{"id": "C86", "title": "A program that is loaded and saved stays the same program", "statement": "A program opened with .loadelf and saved has the same header, the same segments with the same addresses and bytes, the same sections with the same bytes and the same places in their segments; only places in the file change, and these agree with the addresses up to the alignment of each segment when they did before.", "quantifier": "all ELF programs, all orders of sections and of parts of the file, both byte orders", "why_tests_cant": "every field of every header is moved and rewritten according to the sizes of all parts before it; the suite does not load a single ELF program", "anchors": ["Core/ELF/ElfFile.cpp: ElfFile::load, ElfFile::save, ElfFile::writeHeader, ElfSegment::writeData, ElfSection::writeData", "Archs/MIPS/MipsElfFile.cpp: MipsElfFile::load, MipsElfFile::save, DirectiveLoadMipsElf"]}
{"id": "C87", "title": "Data written to a program arrives at its address and nowhere else", "statement": "For any sequence of .org and data after it in a program opened with .loadelf that gives no error, the saved program has at every address what was written there last, and what the program had there before if nothing was; data that fits its section gives no error.", "quantifier": "all ELF programs, all sequences of addresses and data", "why_tests_cant": "a claim about every address of every program and any number of writes that may overlap", "anchors": ["Core/ELF/ElfFile.cpp: ElfSegment::writeToData", "Archs/MIPS/MipsElfFile.cpp: MipsElfFile::seekVirtual, MipsElfFile::write", "Core/FileManager.cpp: FileManager::write, FileManager::advanceMemory"]}
{"id": "C88", "title": "Positions in a program are the addresses that were asked for", "statement": "In a program opened with .loadelf, going to a memory address succeeds exactly for addresses in a section of a segment and the position is that address, and after writing it is the address behind; the same for physical addresses; and each pass starts from the same position.", "quantifier": "all ELF programs, all positions and addresses", "why_tests_cant": "a claim about every address and every layout of segments and sections", "anchors": ["Archs/MIPS/MipsElfFile.cpp: MipsElfFile::seekVirtual, MipsElfFile::seekPhysical, MipsElfFile::getVirtualAddress, MipsElfFile::getPhysicalAddress, MipsElfFile::open"]}
{"id": "C89", "title": "The function made for the constructors of imported objects calls each of them once", "statement": "The function that .importobj defines when it is given a name assembles, on every architecture, and when it is called it calls every function listed in the constructor sections of the objects exactly once, in the order of the table, with the stack pointer below its own frame; then it returns to its caller with the saved registers and the memory outside of its frame as the constructors left them.", "quantifier": "all numbers and sizes of constructor sections, all addresses, all initial register and memory contents, all constructors that keep to the calling convention", "why_tests_cant": "a claim about every execution of the generated machine code; the suite never runs what it assembles, and it has no test of constructors", "anchors": ["Archs/MIPS/MipsElfRelocator.cpp: mipsCtorTemplate, MipsElfRelocator::generateCtorStub", "Archs/SuperH/ShElfRelocator.cpp: shCtorTemplate, ShElfRelocator::generateCtorStub", "Archs/ARM/ArmElfRelocator.cpp: ctorTemplate, ArmElfRelocator::generateCtorStub", "Parser/Parser.cpp: Parser::parseTemplate", "Core/ELF/ElfRelocator.cpp: ElfRelocator::generateCtor"]}
{"id": "C90", "title": "A command line is accepted exactly if it is well formed, and sets what it says", "statement": "armips accepts a command line exactly if it consists of the options of the usage text with their parameters and one file, in any order (after -- only files), the names of the equs and of the labels are symbol names and given once each, the values of labels can be read, the directories and the file exist; it can be read in one way only, and then the settings are the ones written (the last one where one is used, directories one after the other). The exit code is 0 exactly if the command line is accepted and the assembly succeeds.", "quantifier": "all lists of words, all directories and files", "why_tests_cant": "an equivalence over all lists of words; the test suite calls runArmips directly and never goes through the command line", "anchors": ["Main/CommandLineInterface.cpp: parseArguments, runFromCommandLine", "Core/Assembler.h: ArmipsArguments"]}
{"id": "C91", "title": "Equs and labels of the command line are those of the source", "statement": "As the usage text says, -equ NAME VAL is equivalent to the line NAME equ VAL, -strequ to NAME equ \"VAL\" and -definelabel NAME VAL to .definelabel NAME, VAL at the start of the source: the same errors, the same replacement, the same value.", "quantifier": "all names, all values, all lists of definitions", "why_tests_cant": "relates two ways through the program for all texts; the test suite does not use the command line", "anchors": ["Main/CommandLineInterface.cpp: parseArguments, printUsage", "Core/Assembler.cpp: runArmips", "Parser/Parser.cpp: Parser::addEquation, Parser::checkEquLabel", "Core/SymbolTable.cpp: SymbolTable::addLabels", "Util/Util.cpp: stringToInt"]}
{"id": "C92", "title": "Immediates of vfim become the nearest half float", "statement": "The immediate of vfim.s is stored as the half precision number nearest to it (of two equally near ones the one further from zero; a number too large becomes the greatest half), a half float is stored as itself, and zero, infinities and NaNs stay what they are.", "quantifier": "all double precision values and all integers below 2^53", "why_tests_cant": "a statement about rounding for 2^64 bit patterns, with the nearest value as the yardstick; the tests assemble a handful of literals", "anchors": ["Util/Util.cpp: toHalfFloat, fromHalfFloat", "Archs/MIPS/CMipsInstruction.cpp: CMipsInstruction::Validate, immediateToHalfFloat"]}
{"id": "C93", "title": "Prefixes, rotations and constants of the vector unit mean what is written", "statement": "An operand of vpfxs, vpfxt, vpfxd, vrot or vcst is accepted exactly if the unit can do what is written, and then the bits of the instruction mean to the unit what is written in every lane.", "quantifier": "all lists of tokens, all vector sizes", "why_tests_cant": "an equivalence between all texts and the bits as the hardware reads them; the tests assemble a few lines and compare words", "anchors": ["Archs/MIPS/MipsParser.cpp: MipsParser::parseVcstParameter, MipsParser::parseVfpuVrot, MipsParser::parseVpfxsParameter, MipsParser::parseVpfxdParameter", "Parser/Parser.cpp: TokenSequenceParser::parse"]}
{"id": "C94", "title": "A call of a user function is its content with the arguments for the parameters", "statement": "A function defined with .expfunc has, for any arguments, the value its content means where the parameters stand for the values of the arguments and labels are those of the place of the definition; conditions choose which branch is evaluated, so that recursive definitions end; nothing is reported for what is not evaluated. A definition is accepted exactly if it is well formed and the name is not that of a function.", "quantifier": "all definitions (also recursive ones), all expressions, all argument values, all label tables", "why_tests_cant": "recursion of any depth, and a comparison of replacing tokens and parsing again with the meaning of the expression; the tests call two functions", "anchors": ["Core/ExpressionFunctionHandler.cpp: ExpressionFunctionHandler::addUserFunction, ExpressionFunctionHandle::execute", "Parser/Parser.cpp: Parser::parseFunctionDeclaration, Parser::checkExpFuncDefinition", "Parser/Tokenizer.cpp: Tokenizer::processElement, Tokenizer::registerReplacementInteger"]}
{"id": "C95", "title": "The arguments of a macro call are what stands between the commas outside of brackets", "statement": "A call of a macro is accepted exactly if it gives as many non-empty arguments as the macro has parameters, separated by commas outside of brackets, with balanced brackets, up to the end of the statement, and these are then the arguments; everything else is reported. A definition is accepted exactly if it names the macro and its parameters, ends with .endmacro, has a new name and stands in no block that is false or not decided while parsing; its content is what stands in between.", "quantifier": "all token sequences, all numbers of parameters and arguments, any nesting of brackets", "why_tests_cant": "unbounded nesting, and an exact characterisation of what is accepted including malformed calls; the tests call a few macros with well formed arguments", "anchors": ["Parser/Parser.cpp: Parser::extractMacroParameter, Parser::parseMacroCall, Parser::checkMacroDefinition, Parser::parseExpressionList"]}
{"id": "C96", "title": "Each call of a macro stands for its content with its own arguments and labels", "statement": "However often a macro is called, every call gives the content with the parameters replaced by the arguments of this call and the labels of the content renamed with the number of this call; names that come from the arguments stay what they are.", "quantifier": "all contents without equs, all sequences of calls with any arguments", "why_tests_cant": "the labels are found in the first call only, so the claim is about histories of calls; tests call a macro once or twice", "anchors": ["Parser/Parser.cpp: Parser::parseMacroCall, Parser::parseLabel", "Parser/Tokenizer.cpp: Tokenizer::processElement, Tokenizer::registerReplacement"]}
{"id": "C97", "title": "A Thumb line is read as the first row of the instruction set whose syntax it fits", "statement": "The parser of Thumb lines takes the first row with the name of the line, available on the architecture, whose operands the line has: registers, lists and numbers in the places of the row and nothing else up to the end of the statement. A line that fits no row is rejected; no line fits a row in two ways. What is assembled does not depend on variables that the line did not set, nor on what rows tried before have left behind.", "quantifier": "all token sequences, all architectures, all first values of the variables, characters signed or unsigned", "why_tests_cant": "the rows overlap and share variables without initial values, so the claim is about all sequences of failing rows; tests assemble one line per row", "anchors": ["Archs/ARM/ArmParser.cpp: ArmParser::parseThumbParameters, ArmParser::parseThumbOpcode, ArmParser::parseRegisterList, ArmParser::matchSymbol", "Archs/ARM/ThumbOpcodes.cpp: ThumbOpcodes"]}
{"id": "C98", "title": "A Thumb line becomes the instruction it names", "statement": "A Thumb line at an even address that is accepted is written as halfwords that decode to the instruction with the operands of the line, and a branch leads to its target; a line that is rejected fits no row or asks for an instruction that does not exist; no line leads to undefined behaviour.", "quantifier": "all token sequences, all addresses, all values of expressions, all places of literals", "why_tests_cant": "the whole way from tokens to halfwords over all rows, operands and values; tests check selected lines against stored bytes", "anchors": ["Archs/ARM/ArmParser.cpp: ArmParser::parseThumbOpcode", "Archs/ARM/CThumbInstruction.cpp: CThumbInstruction::Validate, CThumbInstruction::Encode"]}
{"id": "C99", "title": "A data directive writes units of the size that its name has on the architecture and in the mode", "statement": "The names of the data directives stand for what the manual gives: bytes, 16, 32 and 64 bits, halfwords, words and doublewords of the word size of the current architecture, floats and texts with or without an end mark; with No$gba semantics .dw and .dd are 16 and 32 bits and .dh is no directive. Each integer of the line takes that many bytes. No name stands for two things in one mode, whatever the order of the table.", "quantifier": "all names, architectures, modes, lists of parameters and values, all orders of the rows of the table", "why_tests_cant": "the claim is about every name in every mode, also the names that are not directives, and about an order that the standard library leaves open; tests use a few names with one library", "anchors": ["Parser/DirectivesParser.cpp: directives, parseDirectiveData", "Parser/Parser.cpp: Parser::parseDirective", "Archs/SuperH/SuperH.h: getWordSize"]}
{"id": "C100", "title": "A directive line is a command exactly if it has a form of the manual, and is reported otherwise", "statement": "For every directive that takes one line, the line gives a command exactly if its parameters have one of the forms the manual gives for the name and nothing follows; the command has the parameters in the roles of that form. Every other line with the name of a directive is reported with at least one message, none is dropped. A name without a form in the current mode is no directive. A message without a text is reported when it is assembled.", "quantifier": "all names, architectures, modes, lists of parameters of all kinds", "why_tests_cant": "every directive with every number and every kind of parameter; tests use the right forms and a few wrong ones", "anchors": ["Parser/Parser.cpp: Parser::parseDirective, Parser::parseExpressionList", "Parser/DirectivesParser.cpp: directives and its functions", "Util/FileClasses.cpp: getEncodingFromString", "Commands/CDirectiveMessage.cpp: CDirectiveMessage::Validate"]}
{"id": "C101", "title": "Values are put into the built-in code templates at their places and nowhere else", "statement": "The MIPS macros, the constructor functions of imported objects and .msg assemble a built-in text with named gaps. The text that is assembled is that text with every gap filled with its value, whatever the values are: operands, registers, labels, the text of a message. No gap is left open.", "quantifier": "all templates, all values, all label names, all expressions as operands", "why_tests_cant": "the claim is about every text a user can write as operand or message, also texts with percent signs, and about the order of replacement; tests use short operands", "anchors": ["Util/Util.cpp: replaceAll", "Parser/Parser.cpp: Parser::parseTemplate", "Archs/MIPS/MipsMacros.cpp: preprocessMacro and the templates", "Archs/ARM/ArmParser.cpp: msgTemplate", "Archs/ARM/ArmElfRelocator.cpp: ctorTemplate", "Archs/MIPS/MipsElfRelocator.cpp: mipsCtorTemplate", "Archs/SuperH/ShElfRelocator.cpp: shCtorTemplate"]}
{"id": "C102", "title": "A line with a directive of the architecture is a command exactly if it has a form of the manual", "statement": "For the directives that only one architecture has (.thumb, .arm, .pool, .msg, .definearmlabel, .definethumblabel, .resetdelay, .fixloaddelay, .loadelf, and the imports of MIPS and SuperH) a line gives a command exactly if its parameters have a form of the manual and nothing follows, with the parameters in their roles. On the PSX an import without constructor function takes a PSX library if the file is one and an ELF file otherwise, and a constructor function is refused for files that are no ELF files. Every other line with such a name is reported. The names of another architecture are no directives.", "quantifier": "all architectures, names, lists of parameters of all kinds, files", "why_tests_cant": "every directive with every number and every kind of parameter on every architecture; tests use the right forms", "anchors": ["Archs/ARM/ArmParser.cpp: armDirectives and its functions", "Archs/MIPS/MipsParser.cpp: mipsDirectives and its functions", "Archs/SuperH/ShParser.cpp: shDirectives, parseDirectiveShImportObj", "Parser/Parser.cpp: Parser::parseDirective"]}
{"id": "C103", "title": "An import defines a label for each exported symbol once and changes nothing else", "statement": "An import of object files gives no message exactly if the names of all its exported symbols are valid, free, and different even without regard to case, across all files. Labels and equs of the source are never changed. A free valid name gets the label of the first symbol with that name, with its kind (data or not), its original name and its info (ARM or Thumb code). No other name is defined. A label is reported as defined already exactly for the symbols whose name is taken by the source or by an earlier symbol. Addresses are those of the file, without the lowest bit for ARM functions.", "quantifier": "all symbol tables, lists of files with any symbols, machines", "why_tests_cant": "any number of files with any clashes of names; that the info is read from memory that was never set cannot be seen by a test", "anchors": ["Core/ELF/ElfRelocator.cpp: ElfRelocator::exportSymbols", "Archs/ARM/ArmElfRelocator.cpp: ArmElfRelocator::setSymbolAddress", "Core/SymbolTable.cpp: SymbolTable::getLabel"]}
