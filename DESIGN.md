# Formal model of nsasm: design

Source: `/repo` (vslashg/nsasm, C++), read as text.  Model and proofs: `rocq/theories` (Coq 8.16.1).
Property list: `properties.jsonl` (C01...).  Status per property: `MANIFEST.json`.
Wrong-program experiments: `seeded/LOG.jsonl`.

## 1. Shape of the model

* Every C++ function listed in section 3 is transcribed as a total Gallina function, one to one, each with a comment giving file and lines.
* C++ `int` is `Z` with explicit 32-bit range checks where an operation can overflow.  Bytes are `Z` in 0..255.  `std::string` is Coq `string`.  `std::vector` is `list`.  `std::map` is an association list sorted by key.  Hash maps are association lists; where C++ iteration order of a hash map would be observable this is said in the comment.
* Every fallible function returns `res A`:
  * `Ok a`: normal result;
  * `Err e`: the C++ `Error` return (message text is reduced to a kind);
  * `UB u`: assertion failure, signed overflow, out-of-range access, null dereference.  The project's build keeps `assert` enabled, so a failed assert is an abort; either way it is never conflated with an error return;
  * `OutOfFuel`: only for loops which have no structural bound (first pass, disassembler); excluded by the termination theorems.
* External things are parameters: the lookup context (`fullid -> res Z`), the memory image read by the disassembler, the output sink (the model returns the list of writes).

## 2. Files

* `Model*.v`: transcription only, no proofs.
* `Spec*.v`: independent specifications.  `Spec65816` is the instruction table and instruction lengths of the processor; `SpecState` its mode bits and stack; `SpecFlow`, `SpecDisasm`, `SpecTools` executions of a source module, of an image and of a whole program; `SpecArith`, `SpecText`, `SpecNames`, `SpecFlags` numbers, grammar and names; `SpecScope`, `SpecLayout`, `SpecOrder`, `SpecAssemble`, `SpecSink` scoping, placement, module order and output; `SpecRanges`, `SpecRom` sets of addresses and cartridge mappings; `SpecListing` the cleaned-up disassembly; `SpecDump` dumps; `SpecRun` the processor fetching from a memory; `SpecMeet` an assembled program and its disassembly; `SpecCross` an assembled program across its jumps and calls; `SpecDebug` the debugging output; `SpecReport` what an assembled program tells the disassembler; `SpecHarness` the bytes a test expects; `SpecFamily` the opcodes of the three processors; `SpecSafe` the causes of undefined behaviour.
* `*Proofs.v`: lemmas; `DisCases.v`, `FlowCases.v`, `RunCases.v`: deciding hypotheses of theorems for the concrete cases.
* `Properties*.v`: the property theorems, each closed by `exact` of a lemma (refutations are given in place), with an `Example ..._case` showing a non-trivial instance of its hypotheses, and `Print Assumptions`.

A theorem `Cnn_..._refuted` is the negation of a statement that one would expect, proved from a concrete input on which the transcribed code fails.  A theorem `Cnn_..._partial` proves less than the property says; the missing part is in the comment above it and in the manifest note.

## 3. What is modelled, what is not

| source | model | left out |
|---|---|---|
| address.h, numeric_type.h | ModelAddress, ModelNumeric | `AbslHashValue` |
| mnemonic, addressing_mode, opcode_map | ModelMnemonic, ModelAMode, ModelOpcode | |
| expression, identifiers.h | ModelExpr, with messages ModelNameText | |
| execution_state, calling_convention | ModelState | |
| instruction, decode | ModelInstr, with messages about flags ModelFlagText | locations |
| token | ModelToken, with messages ModelParseText | |
| parse | ModelParse, with messages ModelParseText | |
| directive, statement | ModelStatement | locations |
| module | ModelModule, ModelDebug, with messages of loading ModelLoadText, of claims ModelClaimText, of the first pass ModelFlowText | the file is given as its lines |
| assembler | ModelAssembler, ModelDebug, with messages of FindAssemblyOrder ModelOrderText | |
| ranges | ModelRanges | |
| rom, memory | ModelRom, ModelRomText | opening, reading and writing files (`LoadRomFile` is modelled on the bytes read) |
| disassemble | ModelDisasm | |
| util/quick_disassemble, quick_assemble, disassemble_more, quick_dump | ModelTools | |
| the main functions of util, sscanf | ModelMain | the streams themselves: the disk is a function from names to contents; the text of errors is a parameter |
| nsasm/file | ModelFile | opening a file and failures of the stream |
| util/dumb_disassemble | ModelDumb | the text of errors is a parameter |
| util/interactive_parse | ModelInteractive, ModelMain | the text of errors is a parameter |
| error, location.h | ModelLocation | message texts (an error is a code) other than those of rom.cc, token.cc, parse.cc, DeduceMode, CheckConsistency, FixAddressingMode, FindAssemblyOrder, LoadAsmFile, the claim in Module::Assemble, three of RunFirstPass, and of the lookup of names |
| util/print_opcode_map | ModelOpcodeMap | nothing |
| test/test_sink, test/test_assembly | ModelHarness | gtest itself; the texts of failures |
| FamilyForOpcode, Arg1Type (used by tests only) | ModelFamily, ModelOpcodeMap | |
| nsasm/..._test.cc, test/..._test.cc | RepoTests, PropertiesHarness | run on the model: tests of the transcription, not proofs |

Also outside the model: the texts of the other error messages (reduced to a kind), memory exhaustion, the abseil and standard libraries (assumed to meet their documentation; hash map order is a parameter or said not to matter at the place), the compiler.

Simplifications are noted at the definitions.  The main ones: `int` is `Z` with explicit overflow outcomes where the code can overflow; an abstract state is a value (the code mutates in place; each transcription says which fields a function may change, and on an error the partly mutated state is returned where it can be observed); fuel stands for loops without a structural bound and is excluded by C20 and C34.

## 4. Per property: model, proof, result

| id | modelled | proof | result |
|---|---|---|---|
| C01 | Decode, Assemble, opcode tables | case analysis over the 256 opcodes by computation, arithmetic on operand bytes | proved; relative operands separately, since they assemble only through a name |
| C02 | Decode | same enumeration; lengths against `Spec65816` | proved |
| C03 | Assemble, SerializedSize | cases on mode; induction on lists | proved |
| C04 | Assemble of rel8/rel16, Address | modular arithmetic against the processor's branch target | proved; targets that are no address fail an assertion |
| C05 | ToString, Tokenize, Parse, FixAddressingMode, Assemble | lexing lemmas for every printed form, parsing by forms, then C01 | proved for decoded instructions and for every line of a cleaned-up listing; printed relative operands do not parse (refuted form), a folded ADD/SUB can show a size that contradicts its state (refuted form) |
| C06 | CheckConsistency, FixAddressingMode, Decode | cases | proved |
| C07 | DeduceMode, EncodeOpcode | cases; converse by enumeration | proved |
| C08 | Tokenize | induction on digit strings | proved; overlong literals change value (refuted form) |
| C09 | Tokenize | induction on strings | proved |
| C10 | Expr/Term/Factor/Comp | induction over a grammar given as a relation; also on text | proved |
| C11 | Parse | induction on tokens | partial: bounded and terminating always; all items kept unless there is a stray colon (refuted) |
| C12 | Evaluate | induction on trees against mathematical evaluation | proved, with the exact conditions of overflow and of the zero divisor |
| C13 | Address | modular arithmetic | proved |
| C14 | CastTo, ArithmeticConversion | modular arithmetic, finite cases | proved |
| C15 | StatusFlags, RegisterValue, Stack, ExecutionState | finite cases, induction on stacks | proved |
| C16 | FromName, ToName | case analysis of strings | proved |
| C17 | merging | concretisation, induction on stacks | proved |
| C18 | Execute, ExecuteBranch | per mnemonic against the processor's modes and stack | partial: modes and saved status bytes; register values and untracked stack instructions refuted |
| C19 | PushReg, PullReg | cases | partial: 16-bit registers come back with their bytes exchanged (refuted) |
| C20 | RunFirstPass | a measure on the recorded states | proved, for a module and for whole programs |
| C21 | RunFirstPass | invariant of the work list, induction on executions | partial: reached statements exact; recorded state wrong on a revisit (refuted); immediates right for suffixed operands, forward-only modules, modules in one mode, modules whose recorded states are stable |
| C22 | layout in RunFirstPass | induction on lines | proved, for a module and for whole programs |
| C23 | scopes, lookup | induction on scopes | proved |
| C24 | LoadAsmFile | invariant of the loading loop | proved |
| C25 | Tokenize, Parse | the token sequences | proved: the feature does not exist and every use is rejected |
| C26 | DataRange | refinement to a set of addresses | proved |
| C27 | RangeMap | refinement to a partial function | proved |
| C28 | Assembler::Assemble | from C26 | proved |
| C29 | FindAssemblyOrder | loop invariant | proved, with an exact condition of success |
| C30 | FindAssemblyOrder, Assemble, JumpTargets, JumpTargetReturnConventions, NameForAddress | greedy closure; a run is taken apart into what each file contributes (`PermuteProofs`), the parts are put together again in the other order; merging of modes is associative and commutative on the modes that occur (`ModesProofs`) | proved, also for the text printed by the assembly tool; which of several differing names or conventions of one address is used depends on the order (refuted forms) |
| C31 | SnesToROMAddress | arithmetic | partial: LoROM and HiROM exact; ExHiROM wrong (refuted), its actual mapping proved |
| C32 | Rom::Read, ReadByte/Word/Long | induction on length | partial: exact up to 65536 bytes; longer reads refuted, the result for any length proved |
| C33 | RomOverwriter, RomIdentityTest | from C32 | partial: within a bank; constructor and end of image refuted; the result for any length proved |
| C34 | Disassemble | a measure on recorded states, bounded by the 2^24 addresses | proved in every reachable and unreachable state |
| C35 | Disassemble | cases of the returns | proved |
| C36 | Disassemble over any sequence of requests | invariant over the worklist and the sessions; induction on executions | partial: direct jump targets are returned, not collected (refuted form; see C47) |
| C37 | Cleanup | each of the four passes separately | partial: PER and a carry instruction at the end of a bank refuted |
| C38 | Directive::Assemble | induction on the list | proved |
| C39 | everything the assembler runs | a predicate on outcomes, function by function | partial: false as stated (three refuted forms); every cause is listed and two large classes are shown free of it |
| C40 | mnemonic.cc | enumeration and case folding | partial: .REMOTE has no printed name (refuted) |
| C41 | opcode_map.cc | computation against a separately typed table | proved |
| C42 | LoadRomFile on the bytes read | cases | proved |
| C43 | the whole assembler | invariants of loading, layout and both passes | proved |
| C44 | the whole assembler | same | proved |
| C45 | Assemble with a sink | simulation, function by function, with the sink that takes everything | proved |
| C46 | quick_disassemble, quick_assemble | C05 for lines, the printed names, C22/C43 for the program, C45 for the sink | proved: whatever assembles is right (a pair fused across the end of a bank overlaps, by descent on addresses, so it never assembles); that everything assembles is refuted, two causes characterised |
| C47 | quick_disassemble | C36 per request, induction over passes and calls | proved |
| C48 | disassemble_more | computation of the first request | the claim is false of the code (refuted); what happens instead is proved |
| C49 | quick_dump, quick_assemble | the printed lines are lexed and parsed, then run through all passes; induction on the lines | proved: a dump of up to a bank assembles to the bytes shown, a longer one is refused as an overlap, a missing byte terminates the program |
| C50 | dumb_disassemble: the whole loop with its output | induction on the fuel with the invariant that the recorded targets are those of the last branches printed; the distance to the gap falls | proved; refuted: that it always ends, and that states behind an exit are right |
| C51 | OpenFile after opening, MakeFakeFile; the printed lines of quick_dump and quick_disassemble | induction on the text; tokenizing ignores space at the ends; no printed piece has a newline (labels are identifiers, operands literals or labels) | proved |
| C52 | interactive_parse: what is printed for a line | tokens determine what the parser returns (an invariant kept by every parsing function), printed tokens are computed, reading conserves the number of names and minus signs, and printing an operator or negative number adds one | proved; refuted without the condition |
| C53 | locations of errors: Location, Error::SetLocation and every use of them in module.cc and assembler.cc | the assembler is transcribed again with located errors; erasing locations gives the first model back (by simulation), and an invariant ties the list of locations to the lines of the file; each error is traced to the statement that caused it | proved; refuted for names exported twice |
| C54 | print_opcode_map | all 256 lines computed and compared with the processor's opcode matrix | proved |
| C55 | Arg1Type, ArgsToString, Tokenize, Parse: the lines of the test Parse.round_trip | printed operands lex to known tokens, which the parser reads as the operand or its negation; modes from the exact characterisation of DeduceMode | proved; the least int refuted |
| C56 | sscanf with %x and %d (C17), as the tools use it | the digits, sign and prefix are unique decompositions of the text | proved; printed form refuted |
| C57 | main of quick_disassemble and dumb_disassemble, on a disk | induction over the pairs of arguments: each is a request, turned down or undefined; the map keeps the first of equal addresses | proved |
| C58 | main of quick_assemble, LoadRomFile, OpenFile, Assemble with the comparing sink | C45 (the sink only ends the run) and C33 for writes that fit, which C28 and C43 give | proved; other uses refuted |
| C59 | main of interactive_parse | induction over the lines; C09, C11 and C52 for each | proved |
| C60 | quick_dump, quick_disassemble and quick_assemble as processes on a disk | C51 with C56 to C58 | proved; condition that a listing assembles as in C46 |
| C61 | Disassemble over any number of requests; the passes of quick_disassemble | invariant of the work list: every pending address and every instruction found is reached; edges of an instruction never change (later visits keep it, suffixes and labels do not matter); targets of jumps come from instructions found | proved |
| C62 | Disassemble over any number of requests, Cleanup, PrintInstructions' listing; the whole assembler on that text | simulation: the modes and stack the assembler finds at a line are no more precise than those of the disassembler, which is kept by every instruction (monotonicity of execution), merging and .entry; so every step that the disassembler could take, the assembler can take; C46 for the bytes | proved under conditions (listable); each condition is shown to be needed or the code to fail without it; C62_main lifts it to the two programs and their files, C62_apart is the converse for overlaps |
| C63 | Disassemble over any number of requests, State::Execute, StackState pulls; Rom::Read; the passes of quick_disassemble | added invariant of the run: 'original' bits occur in a tracked state only if some request left that width open, every address of the work list is led to from the start by the bytes of the image; all other outcomes of each function are shown not to be undefined | proved; C63_widths_refuted for the version about the command line |
| C64 | assemble (all passes), Module, instruction encoding, State; SpecRun: the processor fetching from a memory | simulation: each fetched step of the processor is a step of SpecFlow's execution of the source, with the place given by the layout (C26), the bytes by C28/C29, the length by C21 | proved under `predictable`, in both directions; C64_refuted without |
| C65 | assemble and Disassemble together; SpecMeet: an image of the memory | C64_complete takes an execution of the source to one of the memory, which is one of the image; C36_runs gives the collected instructions; with C37 and C46 their bytes are written again | proved under the conditions of C64 and C36 |
| C66 | assemble and the processor across jumps; SpecCross | induction over the jumps: each leads to an .entry (C64_jump gives the address), from there C64_follows; the witness of the refuted form is executed | proved under the conditions of C64 and that jumps lead to true .entry directives; that they are unchecked is C66_unchecked_refuted |
| C67 | assemble, the processor across jumps and quick_disassemble together | the executions of SpecCross are those of SpecTools in the image (induction over jumps, then over steps); C47_covers gives the collected instructions, C66 the statements, C65's lemma the bytes of the listing | proved under the conditions of C66 and C47 |
| C68 | test/test_sink, test/test_assembly, MakeFakeFile, assemble | the map of received bytes is, up to order, the list of bytes laid out (permutations without sortedness); C45 reduces the sink to the writes, C28 gives that they are apart | proved; C68_masked_refuted for the order of the two overlap checks |
| C69 | FamilyForOpcode, Arg1Type, InstructionLength, Decode | computation over the 256 opcodes; cases on the mode | proved |
| C70 | DebugPrint of a module and of the assembler | the labels and statements of the source are followed through all passes; the values are those of C22 and C44 | proved: everything is shown, in order, with its value modulo 2^24; every write has its line; two constants can look the same (refuted) |
| C71 | JumpTargets, JumpTargetReturnConventions and NameForAddress of the assembler and of its modules | what each line adds, followed through the merges of the modules; merging modes is the least upper bound of consistent modes | proved: exactly the places outside of the program that lines tell of, with the sharpest mode allowing all of them; conventions of the first file, last line; names of the first named file |
| C72 | Parse, LoadAsmFile, the passes, FindAssemblyOrder, Assemble | every function commutes with a one-to-one change of names; induction over lines, statements, tokens | proved; changing mode names or merging names refuted |
| C73 | Assemble, FindAssemblyOrder, the passes, Module::Assemble | strong induction along the assembly order: every name a module depends on has one owner, before it, with the same value in both programs; ranges apart pairwise | proved |
| C74 | SnesToROMAddress, Rom::Read, RomIdentityTest::Write, RomOverwriter::Write with their messages and locations | erasure to the functions of C31-C34; case analysis; induction on the bytes; for whole programs, C53 with the errors that only an image can give | proved; refuted: that a read past the end names an address |
| C75 | Tokenize, Token::ToString, Parse and everything it calls, with messages and locations | erasure to the functions of C08-C12; every parser function is local: a success depends on nothing behind the next token and an error on nothing behind the token in question, composed along the code; fuel is monotone; for programs, the places and kinds of errors function by function and C53; the advice by enumeration of mnemonics and syntactic modes | proved; refuted: that some token of the line is shown, that an explicit size helps |
| C76 | CheckConsistency, FixAddressingMode and ToString(AddressingMode), with messages | erasure to the checks used everywhere else; the messages by cases, which phrase each has by enumeration of mnemonics; for programs, the kinds of errors function by function and C53 | proved |
| C77 | Expression::Evaluate, the lookups of modules and of the assembler, with messages | erasure to evaluation and lookup of the other properties; induction on the expression; case analysis of the lookups; for programs, the kinds of errors function by function and C53 | proved |
| C78 | FindAssemblyOrder with messages and locations | erasure to the function of C53; induction on the sweeps with the invariant that every recorded name is exported, at its location, by a module already in order | proved; that the numbers are those of lines is refuted by C53 |
| C79 | LoadAsmFile from labels and statements on, with messages | erasure to the functions used everywhere else; induction on the labels, following the names defined at the top and in the innermost block; open blocks are lines of the module by induction | proved |
| C80 | the claim of bytes in Module::Assemble, with its message | C26; some byte of the statement is found by induction on its size | proved; that the address given was written before is refuted |
| C81 | RunFirstPass, with the messages of its own errors | the kinds of errors function by function and C53 | proved |

## 5. What the proofs found in the code

Each of these was met while proving; the ones with a theorem name are proved of the model.

1. ExHiROM addresses in banks 80-FF map to the wrong half (C31_exhirom_refuted).
2. `RomOverwriter`'s constructor dereferences a null pointer, so quick_assemble can not write a file (C33_construction_refuted).
3. `RomOverwriter::Write` accepts an offset equal to the size, and leaves partial writes on an error (C33_overwrite_refuted).
4. `Rom::Read` of more than 65536 bytes returns too few bytes; the identity sink then reads out of bounds (C32_read_refuted, C33_identity_refuted).
5. `PullReg` exchanges the bytes of 16-bit registers (C19_wide_refuted), also when a constant was pushed by PEA (C19_constant_refuted), and trips an assertion for a width "as on entry" (C19_original_refuted).
6. Pulling from an empty tracked stack pops an empty vector: `.entry native; PLA` (C39_container_refuted).
7. Tracked register values are kept by instructions that change them (C18_registers_refuted); XCE forgets bits known as on entry (C18_xce_refuted); PHB, PHD, PHK, PLB, PLD, TCS, TXS are not tracked (C18_stack_refuted).
8. The printed name of `.remote` is empty (C40_directive_names_refuted).
9. `ToSuffixString` prints ", c=1", which is not read back; `ToName` loses m and x when e is unknown (C16_printed_names).
10. `Parse` drops what follows a stray colon (C11_stray_refuted); an unclosed parenthesis in `ADC ($12 $34` is accepted.
11. A label at the end of a file is dropped.
12. `RunFirstPass` overwrites the state of a statement it visits again (C21_refuted).
13. Instructions in the last three bytes of a LoROM bank can not be disassembled, because four bytes are always read.
14. A failed request changes the entry points and the symbol counter (C35).
15. `Cleanup` folds neighbours in the map that are not neighbours in execution, at a bank boundary (C37_wrap_refuted); a later request that meets a folded instruction computes a wrong next address.
16. PER is shown with its displacement, which is read back as an address (C37_per_refuted), or rather not at all (C05_relative_refuted, C46_per).
17. `.org -1`, out-of-range branch targets and exported constants outside 0..2^24-1 trip the assertion in `Address` (C39_assertion_refuted); `.org 16777216` is accepted.
18. Constant expressions overflow int (C11_overflow_refuted, C39_overflow_refuted).
19. The sink is written before overlaps are noticed (C28 speaks of successful assembly only).
20. disassemble_more moves the image twice and reads through the null pointer that is left (C48_more).
21. `FindAssemblyOrder` reports an undefined name in an .equ as a cycle.
22. `ClaimBytes` of more than 65536 bytes claims twice and fails (C26).
23. `BRA foo+1` and branches to qualified names are rejected.
24. `LoadRomFile` on a file of 0x200 bytes reads before the start (C42).
25. Hexadecimal literals of more than six digits are truncated, decimals wrap (C08_long_refuted).
26. `.module @foo` and `.module (foo)` are accepted.
27. `JSL @label` records no far target; JMP and JSR to a local label are no edges of the analysis.
28. When a call of a routine that `yields` is visited again, its target gets the flags after the call (C36_far_refuted); a size suffix may be stale after a later request (C36_suffix_refuted).
29. An entry at which the carry is known is printed as `.entry m8x8, c=0`, which is not read back (C46_carry).
30. quick_dump asks a successful result for its error when a value can not be read, and is terminated (C49_total); a dump of more than a bank does not assemble (C49_long).
31. dumb_disassemble never ends when a bank wraps without an exit instruction (C50_endless_refuted). Behind an exit it goes on with the state after a branch that was not taken, so at the target of a BCC it takes the carry to be set (C50_resumed_refuted), and a later branch to the same target replaces the state instead of being merged. An empty address argument makes sscanf return EOF, which is taken for success.
32. Relative branch operands must be names; plus and minus labels do not exist (C25).
33. Printed operators are not source text: `lda #-1` prints as `lda #op-(1)`, which reads as the difference of a symbol `op` and 1 (C52_negation_refuted). A `.remote` prints without its name and without its return convention (C52_remote_refuted).
34. The error for a name exported by two files gives the index of a statement (from 0) as line number, so it points at an unrelated line (module.cc:318-326, C53_duplicate_refuted).
35. A return convention on an instruction that cannot have one is reported without file and line (parse.cc:426), and so is `jsr foo noreturn noreturn`, as "logic error: ParseInstruction() did not read to a line end": the calls are the only instructions after which the end of line is not checked (C53_cases).
36. "Execution continues past end of file", "Cyclic dependency" and the overlap of two files carry no location; an undefined name in a .equ is reported as a cyclic dependency (C53_cases).
37. An .entry before any .org that leads only to .halt ends in "logic error: no address for .entry directive" (module.cc, `blamed`).
38. Locations given by a sink are overwritten: RomIdentityTest's image path and address never reach the user (C53_sink_case).
39. An immediate of -2147483648 is printed as `#-2147483648` and read back as the negation of the least int, whose evaluation overflows (C55_least_refuted).
40. When two files tell different return conventions for one address, or name it differently, the file added first wins silently (C30_conventions_refuted, C30_names_refuted); nothing else depends on the order of the files (C30_output, C30_told).
41. An address argument that is empty or blank (or just `@`) makes sscanf return EOF, which `!sscanf(...)` does not catch: the uninitialised variable is used (C56_hexadecimal, C57_undefined).
42. The tools print addresses as `$008000` but do not accept them so: `$` is not part of a number (C56_printed_refuted). What follows the digits is ignored, and so is an address without a mode at the end.
43. dumb_disassemble calls `usage(argv[2])`, so the message names the address as program (C57_misnamed_refuted). With too few arguments all tools exit with status 0 (C57_usage, C58_usage_refuted).
44. A listing can make the assembler fail although nothing is wrong with the disassembled program: two instructions that overlap (C62_overlap), a size suffix left from an earlier request (C62_suffix), an entry with known carry (29), PER (16). Worse, `.entry native` in a listing is read as "widths as on entry", where the disassembler had unknown widths and a stack it no longer followed; pulling there is undefined behaviour in the assembler (C62_pull).
45. A request that fails stays among the entry points: if its address is disassembled otherwise, it gets an `.entry` in the listing.
46. The disassembler itself executes undefined behaviour: a routine that begins with PLA, PLX or PLY (or pushes and pulls a register) and is requested with an open width makes PullVarsize call back() on an empty vector, or value() fail its assertion (C63_causes_case). quick_disassemble does so with seeds that give both widths, when a routine is called after PLP (C63_tool_case, C63_widths_refuted).
47. A JMP or JSR with a 16-bit operand that names a label in another bank is assembled without complaint; the processor goes to the same offset in its own bank (C64_jump, case `calling`).
48. A jump or call is not checked against the .entry it leads to: a program that jumps with wide registers to an .entry for narrow ones is assembled, and the processor leaves the statements (C66_unchecked_refuted).
49. The sink of the project's tests reports a byte written twice before the assembler checks for it, so no test written with that harness can see the assembler's own overlap check (C68_masked_refuted).
50. DebugPrint shows the value of a constant modulo 2^24: -1 looks like $ffffff (C70_value_refuted).
51. A jump out of the program whose operand is a name is not among the jump targets, though the name is a constant with the same value as an operand that is (C71_named_refuted); it has to be told by `.remote`.
52. A read that runs past the end of the image is reported with the offset of its first byte in the file in the place of a line number, not with an address (rom.cc:54-55: SetLocation takes the size_t as a line; C74_past_end_refuted).
53. A write to an address outside of the cartridge is reported with the line of the statement only: the address that rom.cc puts into the location is replaced and is not in the text (C74_line).
54. Where something else is expected, the name of a directive is reported as "logic error?": Token::ToString does not know directive names (token.cc:31-64; C75_shown_refuted).
55. An error behind an expression read on its own says "after A operand" (parse.cc:600).
56. `nop 16` is refused because the address has no explicit size, and `nop 0x10` because NOP takes no address: the first message advises what can not help (addressing_mode.cc:219-228; C75_advice_refuted).
57. A name without a module that is not defined anywhere is reported as `::foo`, a name that is not in the source: the message of LocalIndex, "Reference to undefined name", is dropped (module.cc:27-47, 292; C77_names_case).
58. `Second write to same address $008000 in module` gives the address of the statement, which may be written for the first time; the byte that is written twice is not named (module.cc:344-348; C80_address_refuted).

## 6. Wrong programs

`seeded/LOG.jsonl` has one line for each edit of the model that was tried: the definition, the edit, the claim it breaks, the theorems that no longer prove, and the theorems that were tightened because they still did.

## 7. Trusted base

* The Coq 8.16.1 kernel, including its virtual machine (`vm_compute` is used for enumerations and concrete cases).
* Axioms: none.  `Print Assumptions` stands below every property theorem and reports "Closed under the global context" for each.  (vcheck's list of names of the loaded standard library has the seven parameters `Coq.ssr.ssrunder.Under_rel.*` of the ssreflect library; no theorem depends on them.)
* The faithfulness of `Model*.v` to the source, to be judged from the line references, and of `Spec*.v` to what is meant; `Spec65816` was typed from the processor's documentation, not from the source.
