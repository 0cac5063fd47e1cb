{"id": "C01", "title": "Decoding then assembling reproduces the bytes", "statement": "Whenever Decode() accepts a byte string under some flag state and the result is not a relative branch, assembling the decoded instruction at any address writes exactly the bytes that were consumed; for a relative branch the same holds once the operand is given as the branch's destination address.", "quantifier": "for every byte string, every flag state, every address in the 24-bit space and every lookup context", "why_tests_cant": "4-byte encodings times flag states times addresses is far beyond enumeration; the existing test checks one operand pattern per opcode", "anchors": ["nsasm/decode.cc:Decode", "nsasm/instruction.cc:Instruction::Assemble", "nsasm/opcode_map.cc:DecodeOpcode,EncodeOpcode"]}
{"id": "C02", "title": "Decode consumes exactly the instruction's length", "statement": "Decode() succeeds exactly when the first byte's operand size is determined by the flag state and at least that many bytes are present; its result depends only on those bytes (trailing bytes are ignored) and SerializedSize() equals the number of bytes consumed.", "quantifier": "for every byte string and flag state", "why_tests_cant": "unbounded byte strings", "anchors": ["nsasm/decode.cc:Decode", "nsasm/addressing_mode.cc:InstructionLength"]}
{"id": "C03", "title": "Announced size equals bytes written", "statement": "Every statement (instruction, ADD/SUB pseudo-op, .DB/.DW/.DL data directive) that assembles successfully performs one write, at its own address, of exactly SerializedSize() bytes.", "quantifier": "for every statement, address and lookup context", "why_tests_cant": "quantifies over arbitrary operand expressions and lookup results; layout of every later label depends on it", "anchors": ["nsasm/instruction.cc:Instruction::Assemble,SerializedSize", "nsasm/directive.cc:Directive::Assemble,SerializedSize", "nsasm/statement.cc"]}
{"id": "C04", "title": "Relative branches reach their target or are rejected", "statement": "An assembled relative branch, executed by the processor (program counter wraps within the bank), lands on the address its operand evaluates to; if the target is in another bank or out of range the assembler reports an error instead of writing a wrong displacement, and every reachable target is accepted.", "quantifier": "for every branch mnemonic, every source address and every target address", "why_tests_cant": "2^48 source/target pairs, wrap-around at bank edges", "anchors": ["nsasm/instruction.cc:Instruction::Assemble", "nsasm/address.h:Address::SubtractWrapped,AddWrapped"]}
{"id": "C05", "title": "Disassembly text reassembles to the same bytes", "statement": "Printing any decoded instruction whose operand is not a relative displacement (branches and PER), tokenizing and parsing that text, and resolving it under the same flag state yields one instruction which assembles to the original bytes.", "quantifier": "for every decodable byte string and flag state", "why_tests_cant": "the round-trip test uses operand 0 only; property covers every operand value through number printing, tokenizing and parsing", "anchors": ["nsasm/instruction.cc:Instruction::ToString", "nsasm/token.cc:Tokenize", "nsasm/parse.cc:Parse", "nsasm/decode.cc:Decode"]}
{"id": "C06", "title": "Immediate operand width follows the processor flags", "statement": "An immediate operand whose width depends on m (or x) is given one byte exactly when the flag is known on, two bytes exactly when it is known off, and is rejected when the flag is not known; consistency checking never accepts an instruction whose encoded operand width contradicts the flag state, and a contradictory .b/.w suffix is rejected.", "quantifier": "for every instruction and flag state", "why_tests_cant": "ranges over all instructions with arbitrary operands and all flag states", "anchors": ["nsasm/instruction.cc:Instruction::CheckConsistency,FixAddressingMode"]}
{"id": "C07", "title": "Accepted syntax always encodes, and every opcode can be written", "statement": "Whenever an addressing mode is deduced for a mnemonic and operands, the pair has an opcode (for ADD/SUB: the underlying ADC/SBC has); conversely each of the 256 opcodes is deduced from some mnemonic, syntax and operand types.", "quantifier": "for every mnemonic, syntactic form and pair of operand expressions", "why_tests_cant": "operands are arbitrary expressions", "anchors": ["nsasm/addressing_mode.cc:DeduceMode", "nsasm/opcode_map.cc:IsLegalCombination,EncodeOpcode"]}
{"id": "C08", "title": "Numeric literals mean what they say", "statement": "A decimal, $hex, 0xhex or %binary literal is read as its positional value (within the int range) and typed by its digit count (1-2 hex digits byte, 3-4 word, 5-6 long; binary likewise); decimal has no fixed type.", "quantifier": "for every digit string", "why_tests_cant": "unbounded digit strings", "anchors": ["nsasm/token.cc:Tokenize"]}
{"id": "C09", "title": "Tokenizer is total, case-insensitive for keywords, and ignores comments", "statement": "For every input line the tokenizer either reports an error or returns a token list ending in exactly one end-of-line token; text after ';' never matters; leading and inter-token whitespace never matters.", "quantifier": "for every character string", "why_tests_cant": "unbounded strings", "anchors": ["nsasm/token.cc:Tokenize"]}
{"id": "C10", "title": "Expression parsing has the documented precedence and associativity", "statement": "Any expression written out with the minimal parentheses required by unary > * / > + - and left associativity parses back to the same tree, leaving the rest of the line untouched.", "quantifier": "for every expression tree and every continuation of the line", "why_tests_cant": "unbounded expression trees", "anchors": ["nsasm/parse.cc:ParseExpression"]}
{"id": "C11", "title": "The parser is memory-safe and consumes the whole line", "statement": "For every token list ending with end-of-line the parser terminates, never looks beyond the end of the list, and either reports an error or accounts for every statement on the line.", "quantifier": "for every token list", "why_tests_cant": "unbounded token lists", "anchors": ["nsasm/parse.cc:Parse"]}
{"id": "C12", "title": "Expression evaluation is integer arithmetic", "statement": "Evaluating an expression whose intermediate results fit in an int gives the mathematical value of the expression (C++ truncating division), division by zero is reported as an error and never executed, and evaluation depends only on the values of the names used.", "quantifier": "for every expression tree and lookup context", "why_tests_cant": "unbounded expression trees, arbitrary operand values", "anchors": ["nsasm/expression.h:Expression::Evaluate"]}
{"id": "C13", "title": "Address arithmetic wraps within a bank", "statement": "Adding an offset keeps the bank and adds modulo 2^16; wrapped subtraction returns the unique offset in [-32768,32767] that leads back, exactly when banks agree.", "quantifier": "for every address pair and offset", "why_tests_cant": "2^48 pairs", "anchors": ["nsasm/address.h:Address"]}
{"id": "C14", "title": "Numeric casts are modular and typed arithmetic is well behaved", "statement": "CastTo returns the unique value congruent modulo the width in the range of the type; it is idempotent; the arithmetic conversion of two types is commutative, associative and idempotent with the untyped case as unit.", "quantifier": "for every int and numeric type", "why_tests_cant": "2^32 ints", "anchors": ["nsasm/numeric_type.h:CastTo,ArtihmeticConversion"]}
{"id": "C15", "title": "Processor-mode facts stay consistent and merging is a least-information join", "statement": "Every sequence of flag operations keeps the state consistent (emulation mode forces m=x=1; unknown e forces m,x known only if on); merging is idempotent, commutative and associative on consistent states, for flags, registers, stacks and whole execution states.", "quantifier": "for every sequence of operations and all states", "why_tests_cant": "unbounded stacks and operation sequences", "anchors": ["nsasm/execution_state.h:StatusFlags,RegisterValue,Stack,ExecutionState"]}
{"id": "C16", "title": "Flag-state names round-trip", "statement": "Reading back the printed name of any flag state that came from a name gives the same state, in any letter case; a string is accepted exactly when it is one of the documented names.", "quantifier": "for every string and flag state", "why_tests_cant": "unbounded strings", "anchors": ["nsasm/execution_state.cc:StatusFlags::FromName,ToName"]}
{"id": "C17", "title": "Merging never loses a possibility", "statement": "Any concrete processor state described by either of two execution states is described by their merge.", "quantifier": "for every pair of execution states and every concrete machine state", "why_tests_cant": "infinite state space", "anchors": ["nsasm/execution_state.h:operator|"]}
{"id": "C18", "title": "Static flag tracking is sound for the 65816", "statement": "If a concrete processor state is described by an execution state, then after the processor executes an instruction that static analysis accepts, the new processor state is described by the updated execution state.", "quantifier": "for every instruction, execution state and concrete machine state", "why_tests_cant": "infinite state space", "anchors": ["nsasm/instruction.cc:Instruction::Execute,ExecuteBranch"]}
{"id": "C19", "title": "A pushed register is pulled back unchanged", "statement": "Pushing A, X, Y or P and pulling it back with the same register width restores the tracked value and the tracked stack.", "quantifier": "for every execution state", "why_tests_cant": "unbounded stacks, 2^16 values", "anchors": ["nsasm/execution_state.h:Stack::PushReg,PullReg"]}
{"id": "C20", "title": "Static analysis of a source module terminates", "statement": "The first assembler pass terminates on every module, whatever its control flow.", "quantifier": "for every module (any number of lines, any branch graph)", "why_tests_cant": "termination for all inputs", "anchors": ["nsasm/module.cc:Module::RunFirstPass"]}
{"id": "C21", "title": "Static analysis of a source module covers every path", "statement": "After a successful first pass, each reached line's recorded state describes every processor state in which some execution path through the module can arrive at it, so every immediate operand has the width the processor will use.", "quantifier": "for every module and every execution path", "why_tests_cant": "unbounded programs and paths", "anchors": ["nsasm/module.cc:Module::RunFirstPass"]}
{"id": "C22", "title": "Label values are the addresses where code is placed", "statement": "After a successful pass, statements occupy consecutive addresses (wrapping in the bank) from the last .ORG, each label names the address at which its statement is written, and a statement before any .ORG that needs an address is rejected.", "quantifier": "for every module", "why_tests_cant": "unbounded modules", "anchors": ["nsasm/module.cc:Module::RunFirstPass,Assemble"]}
{"id": "C23", "title": "Name lookup is lexically scoped", "statement": "A name used inside nested .BEGIN/.END blocks denotes the definition in the innermost enclosing block that defines it, else the module-level one; names defined in a block are invisible outside unless exported.", "quantifier": "for every module and use site", "why_tests_cant": "unbounded nesting", "anchors": ["nsasm/module.cc:Module::LocalIndex,LoadAsmFile"]}
{"id": "C24", "title": "Duplicate definitions in a scope are rejected", "statement": "A module which loads successfully never defines the same name twice in one scope (nor the same exported name twice), and unmatched .BEGIN/.END is rejected.", "quantifier": "for every module", "why_tests_cant": "unbounded modules", "anchors": ["nsasm/module.cc:Module::LoadAsmFile"]}
{"id": "C25", "title": "Plus/minus labels are rejected, never misresolved", "statement": "No plus/minus label is ever built: a line that starts with +, -, ++, --, +++ or --- (after any number of \"name:\" prefixes) and a relative branch to one are syntax errors, although the tokenizer and module.cc provide for them.", "quantifier": "for every such spelling, every prefix of names, every branch mnemonic and suffix", "why_tests_cant": "unbounded prefixes; absence of a feature", "anchors": ["nsasm/parse.cc:Parse", "nsasm/token.cc:Tokenize", "nsasm/module.cc:Module::LoadAsmFile"]}
{"id": "C26", "title": "Claimed byte ranges behave as a set", "statement": "After any sequence of claims, a byte is contained exactly when some claim covered it (claims wrap within the bank), each claim returns true exactly when it was disjoint from all earlier ones, and the chunk list is the sorted, non-adjacent, canonical representation.", "quantifier": "for every sequence of claims", "why_tests_cant": "unbounded histories", "anchors": ["nsasm/ranges.cc:DataRange", "nsasm/ranges.h"]}
{"id": "C27", "title": "Range map insertion is all-or-nothing", "statement": "Inserting a range succeeds exactly when it is disjoint from what is there; on failure the map is unchanged; lookup returns exactly the value inserted for the range containing the address.", "quantifier": "for every history of insertions and every address", "why_tests_cant": "unbounded histories", "anchors": ["nsasm/ranges.h:RangeMap"]}
{"id": "C28", "title": "Successful assembly writes no byte twice", "statement": "If assembly succeeds, no address is written by two statements in any modules, and an address is reported as owned exactly when it was written.", "quantifier": "for every set of modules", "why_tests_cant": "unbounded programs", "anchors": ["nsasm/module.cc:Module::Assemble", "nsasm/assembler.cc:Assembler::Assemble"]}
{"id": "C29", "title": "Assembly order respects dependencies", "statement": "When an order is found it lists every module exactly once and every name a module's .EQUs need is exported by a strictly earlier module; an order is found whenever one exists; exported names are unique across modules.", "quantifier": "for every set of modules", "why_tests_cant": "unbounded dependency graphs", "anchors": ["nsasm/assembler.cc:Assembler::FindAssemblyOrder"]}
{"id": "C30", "title": "File order does not matter", "statement": "Whether an assembly order exists does not depend on the order in which files were added, and neither does what is assembled: for every output that judges each write by itself, a program that assembles also assembles with its files in any other order; the same writes reach the output, the same addresses count as assembled, the same jump targets are found in the same modes, and the same addresses have names and return conventions. Only which of several differing names or conventions told for one address by different files is used depends on the order.", "quantifier": "for every list of files, every permutation of it, every amount of fuel and every sink that judges writes one by one", "why_tests_cant": "factorial many permutations", "anchors": ["nsasm/assembler.cc:Assembler::AddAsmFile,FindAssemblyOrder", "nsasm/assembler.cc:Assembler::Assemble,JumpTargets,JumpTargetReturnConventions,NameForAddress"]}
{"id": "C31", "title": "Cartridge address mapping is correct", "statement": "For each mapping mode, ROM addresses map to the documented ROM offset, non-ROM addresses are rejected, offsets are in range, and within each documented primary region distinct addresses map to distinct offsets.", "quantifier": "for every SNES address and mapping mode", "why_tests_cant": "2^24 addresses times modes; full statement is for every address", "anchors": ["nsasm/rom.cc:SnesToROMAddress"]}
{"id": "C32", "title": "ROM reads return the requested bytes", "statement": "A successful read of n bytes returns exactly n bytes, the i-th being the ROM byte mapped at address+i (wrapping in the bank); otherwise an error is returned; multi-byte reads are little-endian.", "quantifier": "for every ROM image, address and length", "why_tests_cant": "arbitrary ROM images and lengths", "anchors": ["nsasm/rom.cc:Rom::Read", "nsasm/memory.cc"]}
{"id": "C33", "title": "ROM output sinks respect the image", "statement": "Writing through a ROM sink changes exactly the mapped bytes and never touches memory outside the image; the identity-check sink accepts exactly the writes that match the ROM.", "quantifier": "for every ROM, address and data", "why_tests_cant": "arbitrary images and writes", "anchors": ["nsasm/rom.cc:RomOverwriter::Write,RomIdentityTest::Write", "nsasm/rom.h"]}
{"id": "C34", "title": "Disassembly terminates", "statement": "Disassembling from any entry point of any ROM terminates.", "quantifier": "for every memory image and entry point", "why_tests_cant": "termination for all inputs", "anchors": ["nsasm/disassemble.cc:Disassembler::Disassemble"]}
{"id": "C35", "title": "A failed disassembly request changes nothing", "statement": "If disassembling from an address reports an error, the instructions and labels collected so far are unchanged.", "quantifier": "for every disassembler state, image and entry point", "why_tests_cant": "failure can occur at any step", "anchors": ["nsasm/disassemble.cc:Disassembler::Disassemble"]}
{"id": "C36", "title": "Disassembly is closed under control flow and flag-consistent", "statement": "After successful disassembly every fall-through, branch and direct jump target of a collected instruction is collected too, each instruction is what its bytes decode to under its recorded state, and the recorded state covers every predecessor's outgoing state.", "quantifier": "for every memory image and request sequence", "why_tests_cant": "unbounded control-flow graphs", "anchors": ["nsasm/disassemble.cc:Disassembler::Disassemble"]}
{"id": "C37", "title": "Pseudo-op folding preserves the program", "statement": "Cleaning up a disassembly only fuses CLC;ADC into ADD and SEC;SBC into SUB when the second instruction is not labelled; the bytes that the listing assembles to are unchanged.", "quantifier": "for every disassembly", "why_tests_cant": "unbounded listings", "anchors": ["nsasm/disassemble.cc:Disassembler::Cleanup"]}
{"id": "C38", "title": "Data directives emit little-endian truncated values", "statement": ".DB/.DW/.DL write the low 1/2/3 bytes of each argument in order, little-endian.", "quantifier": "for every argument list and lookup context", "why_tests_cant": "unbounded lists, arbitrary values", "anchors": ["nsasm/directive.cc:Directive::Assemble"]}
{"id": "C39", "title": "No input makes the assembler execute undefined behaviour", "statement": "Loading, analysing and assembling any source text either succeeds or reports an error; it never trips an assertion, overflows a signed integer or reads outside a container.", "quantifier": "for every source text", "why_tests_cant": "all inputs", "anchors": ["nsasm/expression.h", "nsasm/execution_state.h:Stack::PullVarsize", "nsasm/address.h:Address::Address"]}
{"id": "C40", "title": "Names of mnemonics, suffixes and directives round-trip", "statement": "Printing any mnemonic, suffix or directive name and reading it back, in any letter case, gives the same one, and no other string is accepted.", "quantifier": "for every string", "why_tests_cant": "unbounded strings / all letter cases", "anchors": ["nsasm/mnemonic.cc"]}
{"id": "C41", "title": "The opcode tables are the 65816's", "statement": "For each of the 256 opcodes the decoder's mnemonic and operand form are those of the processor, and a mnemonic in an addressing mode encodes to an opcode exactly when the processor has that instruction, with that opcode.", "quantifier": "for every opcode byte, every mnemonic and every addressing mode", "why_tests_cant": "example tests sample opcodes; a single transposed table entry silently miscompiles, and the absence of wrong extra encodings is a universal statement over mnemonic/mode pairs", "anchors": ["nsasm/opcode_map.cc: DecodeOpcode, EncodeOpcode, IsLegalCombination"]}
{"id": "C42", "title": "ROM files are recognised by their header", "statement": "Loading a file yields the image without its 512-byte copier header, with the mapping decided by which of the two header positions has a valid checksum pair; every other file is rejected with an error; the only file contents that break the program are 512 bytes long.", "quantifier": "for every file content", "why_tests_cant": "arbitrary file contents and sizes", "anchors": ["nsasm/rom.cc:LoadRomFile,CheckSnesHeader"]}
{"id": "C43", "title": "The output is exactly the encodings of the statements", "statement": "If assembly succeeds, the modules hold the statements of the source files in order, with flag-dependent immediate operands given the width the recorded flags say, and the writes to the sink are exactly one write for each statement that has bytes: its encoding at its own address, evaluated with the final values of all names; no statement is skipped, duplicated, shortened or encoded with a stale value.", "quantifier": "for every list of source files and every sink", "why_tests_cant": "Tests compare a few hand-assembled listings; they cannot rule out that some combination of modules, names and passes encodes an operand with a value that later changes, or skips a statement.", "anchors": ["nsasm/module.cc:328-400", "nsasm/assembler.cc:85-112", "nsasm/statement.cc:45-57"]}
{"id": "C44", "title": "Constants have the value of their definition", "statement": "If assembly succeeds, every .equ constant in every module has the value of its expression when all the names in it are given their final values, across modules and scopes.", "quantifier": "for every list of source files and every .equ in them", "why_tests_cant": "Whether a value read early is still right at the end depends on the order of modules and lines; the orders are unbounded.", "anchors": ["nsasm/module.cc:295-316", "nsasm/assembler.cc:63-100"]}
{"id": "C45", "title": "A sink can only stop the assembler", "statement": "Assembling with any output sink makes the same writes, in the same order, as assembling with a sink that takes everything, up to the first write that the sink refuses; if it refuses none, the result is the same. No refused write is followed by others, and a refusal is always reported.", "quantifier": "for every list of source files and every sink, including sinks whose answer depends on all earlier writes", "why_tests_cant": "Tests use one or two sinks; a sink's answers can depend on the whole history of writes.", "anchors": ["nsasm/assembler.cc:102-112", "nsasm/module.cc:374-400", "nsasm/output_sink.h"]}
{"id": "C46", "title": "Assembling a disassembly gives back the image", "statement": "If the text that quick_disassemble prints for an image (or the listing of any sequence of disassembler requests) assembles, the assembler makes exactly one write per listed instruction, at its own address and with its own size, of the bytes that the image has there, so the comparison of quick_assemble with the same image succeeds.", "quantifier": "for every image and mapping, every set of start addresses and modes, and every sequence of requests", "why_tests_cant": "A round trip on some ROMs shows nothing about other operand forms, label placements, folded pseudo-instructions and entry states; a single wrong byte would silently corrupt a rebuilt game.", "anchors": ["util/quick_disassemble.cc:22-125", "util/quick_assemble.cc:36-74", "nsasm/disassemble.cc", "nsasm/parse.cc", "nsasm/assembler.cc"]}
{"id": "C47", "title": "quick_disassemble covers the program", "statement": "If no request of quick_disassemble failed and its last pass left no new targets, every instruction that the program executes when started at one of the given addresses in a matching mode, including in all the routines it directly jumps to or calls at any depth, is in the disassembly, in a state true of the processor and with the length with which the processor reads it.", "quantifier": "for every image, every set of start addresses with modes, every execution of any length", "why_tests_cant": "Executions and call depths are unbounded and the worklist order over passes depends on the image.", "anchors": ["util/quick_disassemble.cc:22-88", "nsasm/disassemble.cc:20-185"]}
{"id": "C48", "title": "disassemble_more shows the open jump targets", "statement": "After assembling its sources against the image, disassemble_more disassembles every jump target that the sources leave open.", "quantifier": "for every image and every list of source files that assembles", "why_tests_cant": "The program has no tests; the failure is a use of a moved-from pointer that only shows when there is something to disassemble.", "anchors": ["util/disassemble_more.cc:39-121"]}
{"id": "C49", "title": "Assembling a dump gives back the image", "statement": "What quick_dump prints of at most 65536 bytes assembles, to writes that follow one another in the bank from the start address and hold exactly the bytes of the image there, so quick_assemble finds no difference; a longer dump is refused as overlapping itself. The dump is printed exactly when the image has all the bytes asked for.", "quantifier": "for every image and mapping, start address, count, stride and number of values per line", "why_tests_cant": "Values, line breaks and bank wrap-around combine without bound; an off-by-one in any row would corrupt a rebuilt image only for some counts and addresses.", "anchors": ["util/quick_dump.cc:48-108", "nsasm/parse.cc", "nsasm/directive.cc:84-108", "nsasm/module.cc:328-400"]}
{"id": "C50", "title": "The quick listing follows the code", "statement": "dumb_disassemble prints, from the start address on, the instructions that the image holds one after the other, each decoded in the state handed on to it (behind an instruction that does not continue: the state of the last branch printed that leads there), with the target of each branch; it ends at an error, or behind an instruction that does not continue where no printed branch leads. On code executed without taking a branch, the processor executes exactly these instructions in states that agree with those printed. It ends, for every image with a gap in the bank.", "quantifier": "for every image, start address and start mode", "why_tests_cant": "The program has no tests; which instructions are printed, and whether printing ends, depends on whole banks of arbitrary code.", "anchors": ["util/dumb_disassemble.cc:42-106", "nsasm/decode.cc", "nsasm/instruction.cc"]}
{"id": "C51", "title": "Files are read line by line, and printed text can be read back", "statement": "A file is read as exactly the lines that its text has: no line contains a newline, and the lines written out are the text up to a newline missing at the end. White space around lines, carriage returns included, does not change what is assembled, and the files that the tests build from strings assemble like real files. The text printed by quick_dump, and the text printed by quick_disassemble when it assembles, pass the comparison with the image when stored in a file with either kind of line end.", "quantifier": "for every text, every list of files, every image and every disassembly", "why_tests_cant": "Tests never read a real file; they use MakeFakeFile, whose agreement with OpenFile on all texts is what makes the tests meaningful.", "anchors": ["nsasm/file.cc:8-30", "nsasm/token.cc:67-75", "util/quick_dump.cc", "util/quick_disassemble.cc", "util/quick_assemble.cc:44-50"]}
{"id": "C52", "title": "Printed statements read back exactly when their operands are plain", "statement": "A label or statement that any source line contains, printed as interactive_parse prints it, is read back as the same single label or statement exactly when its operands are names and numbers, no decimal number among them is negative, and it is not a .remote directive. Typing a printed plain line again prints it again.", "quantifier": "for every source line and everything read from it", "why_tests_cant": "The printer and the parser are separate code over an infinite set of operands, names and suffixes; no test composes them, and a dropped suffix or convention would be seen only on particular statements.", "anchors": ["util/interactive_parse.cc:20-43", "nsasm/parse.cc:506-514", "nsasm/statement.cc", "nsasm/instruction.cc", "nsasm/directive.cc:28-54", "nsasm/expression.cc:8-24"]}
{"id": "C53", "title": "Errors are reported at the line they are about", "statement": "When assembling fails, the error carries the path of a file and the number of the line on which the statement stands that caused the error: a line that cannot be read, the innermost unclosed block, a statement that cannot be executed, sized, placed, evaluated, encoded or written. The only errors without a line are a misplaced return convention, execution past the end of a file, cyclic dependencies and overlapping files; the only error with a wrong line is a name exported by two files. Carrying locations changes nothing else about assembling.", "quantifier": "for every list of files with non-empty paths, every sink and every error", "why_tests_cant": "Tests compare messages or only check that there is an error; an off-by-one in one of some twenty places that attach a location, for some error on some statement after some blank lines, goes unnoticed.", "anchors": ["nsasm/location.h", "nsasm/error.h:13-45", "nsasm/error.cc:7-13", "nsasm/module.cc:44-400", "nsasm/assembler.cc:12-112"]}
{"id": "C54", "title": "The printed opcode table is the processor's", "statement": "print_opcode_map prints 256 lines. Line n gives the opcode n in hexadecimal, the processor's name for that instruction, the suffix .b exactly when the width of its immediate operand depends on the status register, and the operand in the notation of its addressing form.", "quantifier": "for every opcode from 0 to 255", "why_tests_cant": "No test runs the tool, and its output was only ever compared by eye; agreement with the processor needs all 256 lines.", "anchors": ["util/print_opcode_map.cc:6-23", "nsasm/opcode_map.cc", "nsasm/addressing_mode.cc:7-85", "nsasm/mnemonic.cc:32-37"]}
{"id": "C55", "title": "Every instruction the opcode table has can be written and read back with any operand", "statement": "For every opcode, the text of its mnemonic with any operand value of the type Arg1Type gives (a name for relative branches) is read as exactly one instruction, with that mnemonic and addressing mode and with operands that evaluate to the value, cut to the operand's size.", "quantifier": "for every opcode, every int except the least, every byte and every name", "why_tests_cant": "The test Parse.round_trip does this for the value 0 and the name `label` only; the values with leading zeros, high bits or signs and names that resemble registers or keywords are infinitely many.", "anchors": ["nsasm/parse_test.cc:11-47", "nsasm/addressing_mode.cc:509-526", "nsasm/addressing_mode.cc:7-85", "nsasm/token.cc", "nsasm/parse.cc"]}
{"id": "C56", "title": "Numbers on the command line are read as written", "statement": "sscanf with %x or %d sets the variable exactly when the argument starts, behind space, with an optionally signed number (for %x with an optional 0x) that fits, and to that number; the digits the tools print for an address are read as that address. Otherwise: nothing but space leaves the variable unset without the return value 0, a number that does not fit is undefined, and anything else (an address with its dollar sign as printed) does not match.", "quantifier": "for every argument text", "why_tests_cant": "The util programs have no tests, and argument texts are infinitely many.", "anchors": ["util/quick_disassemble.cc:52-60", "util/dumb_disassemble.cc:29-34", "util/quick_dump.cc:31-47"]}
{"id": "C57", "title": "quick_disassemble and dumb_disassemble start where and how the command line asks", "statement": "From the image in the named file, disassembly starts at exactly the addresses given (the word at the address for @), each in the mode named behind it, the first request for an address counting; if an argument is not an address or a mode, exactly the lines for the first such argument are printed, with exit status 1; a blank or too large address is undefined behaviour. There are no other cases.", "quantifier": "for every disk content, image and argument list", "why_tests_cant": "The main functions have no tests; the order of checks, repeated and left-over arguments and odd spellings of numbers are unbounded.", "anchors": ["util/quick_disassemble.cc:35-125", "util/dumb_disassemble.cc:18-106"]}
{"id": "C58", "title": "quick_assemble's exit status says whether the image was confirmed", "statement": "With the output `-`, quick_assemble ends with status 0 if and only if the image and every file can be opened, the files assemble together, and every byte assembled is in the image at its address; it then prints the jump targets.", "quantifier": "for every disk content and list of file names", "why_tests_cant": "No test runs quick_assemble; agreement of all bytes is a statement about all images and programs.", "anchors": ["util/quick_assemble.cc:18-74", "nsasm/rom.cc:88-149", "nsasm/assembler.cc"]}
{"id": "C59", "title": "An interactive session answers each line by itself", "statement": "The output of interactive_parse is, for every line of the input in order, a prompt and the answer to that line alone, followed by one more prompt; for every input it ends so, unless a constant operand overflows; what it printed for a line is repeated when given as input.", "quantifier": "for every input text", "why_tests_cant": "The program has no tests; inputs are infinitely many.", "anchors": ["util/interactive_parse.cc:14-48"]}
{"id": "C60", "title": "What the tools print can be saved and checked by quick_assemble", "statement": "If quick_dump exits with status 0 for at most a bank, its output saved as a file makes quick_assemble exit with status 0 for the same image; so does the output of quick_disassemble if it assembles.", "quantifier": "for every disk content, image, arguments and file name", "why_tests_cant": "The round trip through several processes and files is not tested at all.", "anchors": ["util/quick_dump.cc:15-109", "util/quick_disassemble.cc:35-125", "util/quick_assemble.cc:18-74", "nsasm/file.cc"]}
{"id": "C61", "title": "Nothing but reachable code is disassembled", "statement": "Every instruction that a disassembler has collected is reached from a request that succeeded, by going on to the next instruction or by relative branches of collected instructions; every instruction quick_disassemble shows is reached from an address on its command line, where direct jumps and calls count too.", "quantifier": "for every image, set of conventions and sequence of requests; for every set of seeds and number of passes", "why_tests_cant": "Tests look at single routines; that no data is ever taken for code which no path leads to needs an invariant over all runs of the work list, over failed requests and over later requests that change earlier results.", "anchors": ["nsasm/disassemble.cc:13-236", "util/quick_disassemble.cc:73-90"]}
{"id": "C62", "title": "A well-behaved listing assembles to the image it came from", "statement": "The listing of a disassembly is accepted by the assembler and gives back the bytes of the image, whenever the modes at its entries can be written, it has no PER, its width suffixes and pulled widths are known, and no instruction overlaps another or the end of its bank; so what quick_disassemble prints passes quick_assemble.", "quantifier": "for every image, set of conventions and sequence of requests whose disassembly meets the conditions, and all sufficiently large step bounds", "why_tests_cant": "That one program accepts every output of another is a statement about all images; it needs that the assembler's analysis is never more demanding than the disassembler's.", "anchors": ["nsasm/disassemble.cc:13-330", "nsasm/module.cc", "nsasm/assembler.cc", "nsasm/execution_state.cc", "util/quick_disassemble.cc", "util/quick_assemble.cc"]}
{"id": "C63", "title": "Disassembling is undefined only where a register of open width is pulled", "statement": "If a request of the disassembler executes undefined behaviour, then control leads from its start address to a PLA, PLX or PLY, and this request or an earlier one left the width of that register open. In particular every request is defined when all requests state both widths. quick_disassemble executes undefined behaviour only if control leads from the seeds to a pull (or 2^31 labels are made); stating the widths on its command line does not rule it out.", "quantifier": "for every image, set of conventions, sequence of requests and step bound; for every ROM and set of seeds", "why_tests_cant": "Absence of undefined behaviour is a statement about all images and all histories of requests; a test on an undefined run may pass by accident, and no test in the project pulls a register whose width was left open.", "anchors": ["nsasm/disassemble.cc:13-236", "nsasm/execution_state.h:393-467", "nsasm/instruction.cc", "util/quick_disassemble.cc:73-125", "nsasm/rom.cc:37-73"]}
{"id": "C64", "title": "The processor runs an assembled program as its source says", "statement": "Put the written bytes of an assembled program in memory and start the processor at an .entry in a state the entry describes. If the modes are analysed correctly (the module has no loops, or changes no modes, or its immediates have size suffixes, or another round of the analysis would change nothing; it is false otherwise), then wherever it arrives by executing the bytes it fetches, it is at an instruction of the source (or between the two halves of an ADD or SUB): the source can be executed up to there with the same modes and stack, the opcode in memory is that of the statement, and the processor takes exactly as many bytes as were assembled for it. Conversely, wherever the source can be executed to an instruction, the processor arrives at the address of that instruction with the same modes and stack (if the operands of REP and SEP are constants). A jump or call whose operand is a label of the module reaches that label exactly if the instruction carries a 24-bit address or the label is in the same bank.", "quantifier": "for every set of files, every module, every memory that contains the output, every start state that the entry describes and every number of steps", "why_tests_cant": "The project has no simulator and its tests compare single encodings; that every execution of every program stays on the statements is a statement about unboundedly many programs and steps, and depends on the mode analysis, the placement and the encoding agreeing everywhere.", "anchors": ["nsasm/assembler.cc:1-172", "nsasm/module.cc:164-448", "nsasm/instruction.cc:410-508", "nsasm/execution_state.h", "nsasm/opcode_map.cc"]}
{"id": "C65", "title": "Disassembling an assembled program finds its instructions", "statement": "Assemble a program whose modes are analysed correctly (as in C64) and give the disassembler an image of a memory that holds the output. Request every .entry with its flags, with the return conventions the source writes at its calls. Then for every instruction of the source that execution can reach, the bytes assembled for it appear in the disassembly, at the address of the statement, as one instruction with the same mnemonic (ADD and SUB as CLC, ADC and SEC, SBC). In particular this holds for a ROM image that quick_assemble finds to agree with the source. If the listing of that disassembly is assembled, every one of these bytes is written again at its address.", "quantifier": "for every set of files, every module, every image that shows the output, every session of the disassembler, every execution of the source", "why_tests_cant": "It relates the two halves of the project, which share no test: assembler and disassembler analyse modes separately, and that the second never reads an instruction with another length than the first wrote it concerns all programs and paths.", "anchors": ["nsasm/assembler.cc:1-172", "nsasm/disassemble.cc:1-327", "nsasm/module.cc:164-448", "nsasm/instruction.cc:410-508", "util/quick_assemble.cc:36-74"]}
{"id": "C66", "title": "A program stays on its statements across jumps and calls", "statement": "Take an assembled program of any number of files, in memory, whose modes are analysed correctly (as in C64). The processor starts at an .entry that is true of its state, and every reachable JMP, JSR or JSL with an address names a label at an .entry of its file that is true when the jump is taken, in the same bank or with a 24-bit address. Then wherever the processor comes, through any number of jumps, calls and branches, it is at an instruction of one of the files (or inside an ADD or SUB), with the opcode and the length assembled for it.", "quantifier": "for every set of files, every memory that holds the output, every starting state, every sequence of jumps and calls, every path between them", "why_tests_cant": "Programs call without bound, and the claim concerns every chain of calls in every program; the assembler analyses each routine alone and checks nothing where they meet.", "anchors": ["nsasm/assembler.cc:1-172", "nsasm/module.cc:164-448", "nsasm/instruction.cc:410-508", "nsasm/directive.cc:50-68"]}
{"id": "C67", "title": "quick_disassemble finds an assembled program again from its start alone", "statement": "Take an assembled program as in C66, without conventions at its calls, and an image that shows it. Run quick_disassemble with the address and modes of the starting .entry. If no request fails and nothing is left to look at after the passes, then wherever the program comes, through any number of jumps, calls and branches, the disassembly has the bytes that the processor takes as one instruction, with the mnemonic of the source statement that stands there (ADD and SUB as their two halves). If the listing is assembled, each of these bytes is written again at its address.", "quantifier": "for every set of files, every image that shows the output, every list of seeds containing the start, every sequence of jumps and calls, every path", "why_tests_cant": "It joins assembler, processor and the multi-pass search of the tool, for programs with any number of routines; tests see one program and compare text.", "anchors": ["util/quick_disassemble.cc:40-110", "nsasm/disassemble.cc:1-327", "nsasm/assembler.cc:1-172", "nsasm/module.cc:164-448"]}
{"id": "C68", "title": "The project's test harness passes exactly the right programs", "statement": "Assembling into the sink of the project's tests succeeds exactly when assembling does, with the same writes. A test that files give certain bytes passes if and only if the files assemble and the bytes written are, each at its address, exactly the expected ones. If the files assemble, the test comes to a verdict, except that an expected location outside the address space fails an assertion. A test that assembling fails with some message passes if and only if assembling fails so before a byte is written twice, or a byte is written twice and the message is the sink's.", "quantifier": "for all contents of files, all expectations with 32-bit locations, all classes of messages", "why_tests_cant": "A harness is not tested by the tests it runs: a harness that ignored left-over bytes would pass all of them.", "anchors": ["test/test_sink.cc:5-45", "test/test_sink.h:13-31", "test/test_assembly.cc:12-51", "nsasm/file.cc:24-30"]}
{"id": "C69", "title": "Processor families and operand types are right for every opcode", "statement": "The family recorded for an opcode is the 6502 exactly for the 151 opcodes of the 6502, the 65C02 exactly for the 27 it added, else the 65816. The operand type recorded for an addressing mode is the type the decoder gives to the first operand, except that offsets are signed, and an instruction is one byte longer than its operands.", "quantifier": "for all 256 opcodes, all operand bytes, all flags", "why_tests_cant": "The project's test restates the family rules by mode and mnemonic; here they are compared with the processors' opcode lists, and the operand types with the decoder for all operands.", "anchors": ["nsasm/opcode_map.cc:20-277", "nsasm/opcode_map.cc:320", "nsasm/addressing_mode.cc:425-443", "nsasm/addressing_mode.cc:509-525", "nsasm/decode.cc:9-109"]}
{"id": "C70", "title": "The debugging output shows the program that was assembled", "statement": "After a successful Assemble, Assembler::DebugPrint prints for every file a heading with its path and below it all labels and statements of the file, in order, each statement with its value (address or constant) as six hexadecimal digits or with blanks if it has none. Every write has a line with its address and the statement it comes from.", "quantifier": "for all sets of files that assemble, all paths, all sinks", "why_tests_cant": "Nothing in the project calls it (the only call is commented out), and a test would see one program.", "anchors": ["nsasm/module.cc:402-417", "nsasm/assembler.cc:156-161"]}
{"id": "C71", "title": "What the assembler tells the disassembler is what the program says", "statement": "After a successful Assemble, JumpTargets holds exactly the addresses that have no byte of the program and that some line tells of: a JMP/JSL to a long or a JMP/JSR to a word in the instruction's bank given without names, or a .remote; each with the sharpest consistent mode that allows the modes of all these lines. The return convention told for an address is that of the first file that gives one, by its last .entry or .remote for the address. NameForAddress gives a module-level name whose value is the address, of the first file that has a module name and such a name, and nothing only if there is none.", "quantifier": "for all sets of files that assemble, all sinks, all addresses", "why_tests_cant": "The targets are gathered over all lines of all files and merged; a test sees one program, and the merging of modes has many combinations.", "anchors": ["nsasm/assembler.cc:114-154", "nsasm/module.cc:328-400", "nsasm/module.cc:436-446", "nsasm/instruction.cc:510-529"]}
{"id": "C72", "title": "Names and layout carry no meaning", "statement": "Two programs whose files contain the same labels and statements, with the names (labels, constants, modules) changed consistently, produce the same bytes in the same order, or fail with the same error, and tell the disassembler the same about addresses; line breaks, spacing, comments and the case of keywords do not matter.", "quantifier": "for every one-to-one change of names, every pair of such programs and every sink", "why_tests_cant": "Programs and renamings are unbounded; tests use a handful of fixed names.", "anchors": ["nsasm/parse.cc:Parse", "nsasm/module.cc:LoadAsmFile", "nsasm/module.cc:RunFirstPass", "nsasm/module.cc:RunSecondPass", "nsasm/module.cc:Assemble", "nsasm/assembler.cc:FindAssemblyOrder", "nsasm/assembler.cc:Assemble"]}
{"id": "C73", "title": "Programs are put together file by file", "statement": "Adding files to a program that can be assembled leaves its modules and its writes as they were, if the whole can be assembled; two programs that can be assembled make one exactly if they export no name in common and have no byte in common; and files take nothing from the others but the values of the names those export.", "quantifier": "for all lists of files and every sink that judges each write by itself", "why_tests_cant": "Programs and what may be added to them are unbounded; a test links one library with one program.", "anchors": ["nsasm/assembler.cc:Assemble", "nsasm/assembler.cc:FindAssemblyOrder", "nsasm/module.cc:RunSecondPass", "nsasm/module.cc:Assemble", "nsasm/module.cc:ValueForName"]}
{"id": "C74", "title": "Errors of an image say what is wrong", "statement": "A read that fails is reported with the path of the image, one of the addresses asked for that cannot be read, and the reason (a read in one piece past the end: the offset of its first byte); a comparison that fails names the first byte that differs, the byte written and the byte there. When a program is compared with an image, the error is printed with the file and line of a statement that the image refuses.", "quantifier": "for all images, mappings, addresses and lengths up to a bank", "why_tests_cant": "There are 2^24 addresses, three mappings and unboundedly many images; no test looks at an error text.", "anchors": ["nsasm/rom.cc:SnesToROMAddress", "nsasm/rom.cc:Rom::Read", "nsasm/rom.cc:RomIdentityTest::Write", "nsasm/rom.cc:RomOverwriter::Write", "nsasm/location.h:Update", "nsasm/error.cc:ToString"]}
{"id": "C75", "title": "Errors of a line say what is wrong", "statement": "A line that cannot be split into tokens is reported with its place and with the character, or the whole word after a dot, that cannot be read. For a line that cannot be understood there is a token such that the message shows it (except for the name of a directive), or names the instruction or directive before it that does not take what it is given, or says that what begins with it was not read, and what follows the token makes no difference. A message that asks for an operand of a certain size, for a name or for arguments is right, and so is one that says what an instruction does not take. For a program with a line that cannot be read nothing is written, and the name of the file, the number of the line and the message for that line alone are printed (without file and line if the message is about a return convention); all lines before it in the file can be read. The reader with messages is the reader of the other properties.", "quantifier": "for all lines, token sequences, locations, programs and sinks that do not themselves give such errors", "why_tests_cant": "There are unboundedly many lines; the tests look at the fact of an error and not at its text, and none compares two lines that go wrong at the same place.", "anchors": ["nsasm/token.cc:Tokenize", "nsasm/token.cc:Token::ToString", "nsasm/parse.cc:Parse", "nsasm/parse.cc:ParseInstructionCore", "nsasm/parse.cc:ParseDirective", "nsasm/parse.cc:CreateInstruction", "nsasm/addressing_mode.cc:DeduceMode", "nsasm/module.cc:Module::LoadAsmFile", "nsasm/error.h:Error::ToString"]}
{"id": "C76", "title": "Errors about status flags are true and helpful", "statement": "When an instruction does not agree with the status flags, the message names the instruction, says something of the `m` or `x` flag, and whatever it says of a flag (set, unset, on, off, unknown) is so. An immediate argument of the width that the message requires is accepted; with an argument that is not immediate, the suffix for the access that the message describes is accepted; and an instruction whose message says that a flag is unknown is not refused for that reason in any state where that flag is known. In a program the message is printed with the file and line of such an instruction.", "quantifier": "for all instructions and flag states; for programs, all programs and all sinks that do not themselves give such errors", "why_tests_cant": "The tests check that inconsistent instructions are refused, in a few states, and not what is said; the claim is about all instructions in all states, and about the whole program.", "anchors": ["nsasm/instruction.cc:Instruction::CheckConsistency", "nsasm/instruction.cc:Instruction::FixAddressingMode", "nsasm/addressing_mode.cc:ToString", "nsasm/module.cc:Module::RunFirstPass"]}
{"id": "C77", "title": "Errors about names blame the first name without a value", "statement": "When an expression on a line of a module cannot be evaluated, the message is about the first name in it, from left to right, that has no value; every name before it has one. It says that there is no definition only of a name that has no line in the module (in the open blocks, or at the top) and is not exported by any module, and that a name is accessed before its definition only of a name that has a line in the module; such a line without a value exists. When all names have values, the only error is a division by zero. In a program, such a message is printed with the file and line of a statement in which there is a name.", "quantifier": "for all modules, lists of open blocks, export tables and expressions; for programs, all programs and all sinks that do not themselves give such errors", "why_tests_cant": "The tests check a few undefined names by the fact that assembly fails, and not which name is blamed; the claim is about all expressions in all modules.", "anchors": ["nsasm/expression.h:Expression::Evaluate", "nsasm/module.cc:ModuleLookupContext::Lookup", "nsasm/module.cc:Module::LocalLookup", "nsasm/module.cc:Module::ValueForName", "nsasm/assembler.cc:AssemblerLookupContext::Lookup"]}
{"id": "C78", "title": "Errors about names defined twice name both files", "statement": "When the modules of a program cannot be put in an order, nothing is written and what is printed either says that there is a cyclic dependency, or names a module and a name that two different files of the program both define, gives the path of both, and in each the number of the statement (counted from 0) that defines the name.", "quantifier": "for all programs whose files load", "why_tests_cant": "The tests have no program with a name defined in two files; the claim is about all programs, of any number of files.", "anchors": ["nsasm/assembler.cc:Assembler::FindAssemblyOrder", "nsasm/module.cc:Module::ExportedNames", "nsasm/error.cc:Error::ToString"]}
{"id": "C79", "title": "Errors about labels, modules and blocks are true", "statement": "When a statement cannot stand after what was read before it, the message says one of three things. A label of the statement is a duplicate: then that name is already defined where the label would be (at the top of the module for exported labels and outside of blocks, else in the innermost open block), or by an earlier label of the same statement. The directive .module is a duplicate: then the statement is a .module and the module has a name. A block is closed that was not opened: then the statement is an .end and no block is open. A file refused for such a reason has such a statement on its first bad line, or a block that is open at its end. No statement is accepted of which one of these things could be said.", "quantifier": "for all sequences of labels and statements, and for all files", "why_tests_cant": "The tests do not check these messages; the claim is about all files and all nestings of blocks.", "anchors": ["nsasm/module.cc:Module::LoadAsmFile"]}
{"id": "C80", "title": "The error about a second write gives the address of a statement that overlaps", "statement": "A module reports a second write exactly when some byte of the statement was claimed before by the module, or the statement is longer than a bank; the message gives the address of the statement. The address given need not have been written before.", "quantifier": "for all sets of owned bytes in the representation of the code, all 24-bit addresses and all sizes", "why_tests_cant": "The tests do not write to an address twice; the claim is about all layouts, including those that wrap at the end of a bank.", "anchors": ["nsasm/module.cc:Module::Assemble", "nsasm/ranges.cc:DataRange::ClaimBytes"]}
{"id": "C81", "title": "Errors about branches to nowhere, unreached lines and missing addresses are true", "statement": "A program rejected because the target of a branch is not found, a line is not reached or there is no address is reported at the file and line of a statement of which this is so. The message about a target shows the mnemonic and operand of the relative branch on that line, and the operand denotes no line there. The line that is not reached has an instruction. The line without an address has bytes, and there is no .org on it or before it in the file.", "quantifier": "for all programs and all sinks that do not themselves give such errors", "why_tests_cant": "The tests do not check these messages; the claim is about all programs.", "anchors": ["nsasm/module.cc:Module::RunFirstPass"]}
