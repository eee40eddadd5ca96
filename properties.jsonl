{"id": "C01", "title": "Out-of-order execution is invisible: the VM refines a sequential T86 machine", "statement": "For every program started on the VM, after any number of clock ticks during which the VM reports no error, RAM and everything printed are exactly what a one-instruction-at-a-time T86 machine has after executing some whole number of instructions; whenever the VM stops (breakpoint, watchpoint, single step, halt) the registers, flags, IP, SP and BP a user can read are also exactly those of that machine.", "quantifier": "all programs in which only jump, call, return and loop instructions write IP (for the others see C44), initial data, stdin contents, VM configurations (registers, float registers, ALUs, reservation-station size, RAM size and gates) and numbers of ticks", "why_tests_cant": "The interleaving of fetch, rename, out-of-order execution, speculation, store forwarding and memory latency has unboundedly many states; a test sees one program in one configuration.", "anchors": ["src/t86/cpu.cpp: Cpu::tick", "src/t86/cpu/reservation_station.cpp: executeAndRetire, fetchAndStartExecution, add", "src/t86/instruction.cpp: *::execute, *::retire"]}
{"id": "C02", "title": "Results do not depend on the hardware configuration", "statement": "Two VMs that differ only in the number of ALUs, reservation-station entries or RAM gates, and that both run the same program to HALT without an error, end with the same registers, RAM and output.", "quantifier": "all programs and all pairs of configurations", "why_tests_cant": "The number of configuration pairs and programs is infinite; a timing hazard shows up only in particular combinations.", "anchors": ["src/t86/cpu.cpp: Cpu::Cpu, Cpu::tick"]}
{"id": "C03", "title": "Every resumable stop is clean", "statement": "Whenever the VM stops for the debugger with a breakpoint, watchpoint, single-step or halt report, no instruction is in flight: nothing fetched, decoded, executing or waiting, no outstanding branch prediction and no unretired memory write, and the next instruction to be fetched is the one at the IP shown to the user.", "quantifier": "all programs, configurations, tick counts and debugger command histories", "why_tests_cant": "It is an invariant over every reachable pipeline state at every possible stopping point.", "anchors": ["src/t86/cpu.cpp: Cpu::unrollSpeculation, flushPipeline", "src/t86/cpu/reservation_station.cpp: Entry::retire"]}
{"id": "C04", "title": "SINGLESTEP executes exactly one instruction", "statement": "After the debugger sends SINGLESTEP, the VM executes exactly one instruction of the program before it reports the next stop, whatever that instruction is.", "quantifier": "all programs, machine states and configurations", "why_tests_cant": "The number of ticks until the stop and the amount of speculative work in flight is unbounded in kind; every instruction in every state counts.", "anchors": ["src/t86/cpu/reservation_station.cpp: Entry::retire", "src/t86/cpu.cpp: Cpu::tick, setTrapFlag, singleStepped"]}
{"id": "C05", "title": "Single-stepping a program gives the same execution as running it", "statement": "Repeatedly single-stepping n times leaves the same registers, RAM and output as the free-running machine has after n instructions.", "quantifier": "all programs in which only jump, call, return and loop instructions write IP (for the others see C44), all n, all configurations", "why_tests_cant": "Requires agreement of two schedules over every program and every length.", "anchors": ["src/t86/cpu/reservation_station.cpp: Entry::retire", "src/t86/cpu.cpp: unrollSpeculation"]}
{"id": "C06", "title": "Wrongly speculated instructions have no visible effect", "statement": "An instruction fetched beyond a mispredicted jump never changes RAM, output, or the registers visible after the misprediction is resolved, and an out-of-range memory read performed by it is never reported as an error.", "quantifier": "all programs, mispredictions and timings", "why_tests_cant": "Depends on how far wrong-path instructions get before the jump resolves, for every program.", "anchors": ["src/t86/cpu.cpp: checkBranchPrediction, unrollSpeculation", "src/t86/cpu/reservation_station.cpp: Entry::readMemory, Entry::retire"]}
{"id": "C07", "title": "The VM never runs out of physical registers", "statement": "No program can make the VM fail with 'No free register was found': register renaming always finds a free physical register.", "quantifier": "all programs and all configurations with at least one reservation-station entry, at every tick", "why_tests_cant": "It is a counting argument over all reachable renaming states.", "anchors": ["src/t86/cpu.cpp: nextFreeRegister, renameRegister", "src/t86/cpu/register_allocation_table.cpp"]}
{"id": "C08", "title": "ALUs are never lost or duplicated", "statement": "At every tick boundary the number of free ALUs plus the number of instructions currently executing that use an ALU equals the configured ALU count, also after flushes.", "quantifier": "all programs, configurations, numbers of ticks", "why_tests_cant": "Leaks appear only after particular flush timings; the invariant must hold for every history.", "anchors": ["src/t86/cpu/reservation_station.cpp: executeAndRetire, fetchAndStartExecution, clear"]}
{"id": "C09", "title": "Branch predictions stay in step with the branches they belong to", "statement": "The recorded predictions are, in order, the predicted targets of exactly the jump instructions currently in flight; resolving a jump always compares it with its own prediction and never finds the record empty.", "quantifier": "all programs, configurations, numbers of ticks", "why_tests_cant": "Requires an invariant over every interleaving of fetch, retirement and flush.", "anchors": ["src/t86/cpu.cpp: fetchInstruction, checkBranchPrediction, flushPipeline"]}
{"id": "C10", "title": "The pipeline cannot deadlock", "statement": "While the VM is not halted and no error is reported, another instruction retires after finitely many ticks, so that a single step ends and any number of instructions is carried out in time (for programs whose instructions do not both load from memory and store to memory).", "quantifier": "all programs, reachable states, configurations with at least one ALU, one reservation-station entry and one RAM gate", "why_tests_cant": "Liveness: a test can never observe 'eventually' for every state.", "anchors": ["src/t86/cpu.cpp: tick", "src/t86/cpu/reservation_station.cpp: fetchAndStartExecution", "src/t86/ram.cpp: RAM::read, RAM::tick"]}
{"id": "C11", "title": "Integer ALU results are exact modulo 2^64 and flags mean what they say", "statement": "ADD/SUB/MUL/IMUL/INC/DEC/NEG/NOT/AND/OR/XOR/LSH/RSH/DIV/IDIV/MOD compute the mathematical result reduced to 64 bits; SF is the sign, ZF zero, CF the unsigned carry or borrow and OF the signed overflow of ADD and SUB; MUL sets CF exactly when the unsigned product does not fit.", "quantifier": "all pairs of 64-bit operands (for LSH and RSH, counts 0 to 63; the other counts, and the operand pairs that deliver no result at all, are the subject of C45)", "why_tests_cant": "2^128 operand pairs.", "anchors": ["src/t86/cpu/alu.cpp"]}
{"id": "C12", "title": "CMP followed by a conditional jump decides the comparison it is named after", "statement": "After CMP a,b: JE/JZ jumps iff a=b, JNE/JNZ iff a<>b, JL/JLE/JG/JGE iff the signed comparison holds, JB/JBE/JA/JAE iff the unsigned comparison holds, JS/JNS and JO/JNO test sign and signed overflow of a-b.", "quantifier": "all pairs of 64-bit values and all sixteen conditional jumps", "why_tests_cant": "2^128 operand pairs times 16 jumps.", "anchors": ["src/t86/instruction.cpp: COND_JMP_INS_IMPL, CMP::execute", "src/t86/cpu/alu.cpp: subtract"]}
{"id": "C13", "title": "The flags register stores and restores flags losslessly", "statement": "Writing a flags value to the FLAGS register and reading it back yields the same four flags, and only the low four bits matter.", "quantifier": "all flag combinations and all 64-bit register values", "why_tests_cant": "All 2^64 register values.", "anchors": ["src/t86/cpu/alu.cpp: Flags::Flags, Flags::operator int64_t"]}
{"id": "C14", "title": "Every addressing form denotes the documented address", "statement": "For each of the operand forms of the manual ([i], [R], [R+i], [R*i], [R+R], [R+i+R], [R+R*i], [R+i+R*i]) loads and stores use exactly the documented address (for LEA see C46), independent of the order in which registers become available.", "quantifier": "all register values, offsets, scales and all operand forms", "why_tests_cant": "Unbounded values and all orders of operand delivery.", "anchors": ["src/t86/instructions/operand.cpp: supply, requirement", "src/t86/instruction.cpp: MOV::execute, LEA::execute"]}
{"id": "C15", "title": "Stack instructions form a stack", "statement": "PUSH then POP returns the pushed value and restores SP; CALL then RET continues at the instruction after the CALL with SP restored; memory outside the pushed cell is untouched.", "quantifier": "all machine states with room on the stack, all values, all nesting depths", "why_tests_cant": "All states and all nesting depths.", "anchors": ["src/t86/instruction.cpp: PUSH, POP, CALL, RET, FPUSH, FPOP"]}
{"id": "C16", "title": "A load sees the latest earlier store", "statement": "A load of any address obtains the value of the latest store to that address that precedes it in program order (or the initial contents), whether the store is still pending, being written or finished, and never the value of a later or cancelled store.", "quantifier": "all programs, all reachable states of the store queue and RAM", "why_tests_cant": "Depends on every interleaving of stores, loads, latencies and flushes.", "anchors": ["src/t86/cpu.cpp: readMemory, writeMemory", "src/t86/cpu/memory_writes_manager.cpp", "src/t86/ram.cpp"]}
{"id": "C17", "title": "A watchpoint fires exactly on writes to an enabled watched address", "statement": "When an instruction writes memory cell a, the VM stops with HW_BKPT and records a responsible debug register exactly when some enabled debug register holds a; the recorded register does hold a.", "quantifier": "all debug-register contents, addresses and programs", "why_tests_cant": "2^320 debug-register states times addresses.", "anchors": ["src/t86/cpu.cpp: checkWrite", "src/t86/cpu/reservation_station.cpp: Entry::retire"]}
{"id": "C18", "title": "Peek and poke are consistent", "statement": "After POKEDATA/POKEREGS/POKETEXT/POKEDEBUGREGS/POKEFLOATREGS of a value, the matching PEEK command reports that value and every other cell, register and instruction is reported unchanged.", "quantifier": "all machine states reachable at a stop other than CPU_ERROR, all locations and values (FLAGS, which no command reports, only as a location that other pokes leave alone)", "why_tests_cant": "All states, locations and values.", "anchors": ["src/t86/debug.cpp: Debug::Work", "src/t86/cpu.cpp: setRegisterDebug, setMemory, setText"]}
{"id": "C19", "title": "What the debugger pokes is what the program sees", "statement": "After a stop, changing registers, data or text through the debugger and continuing behaves exactly as the sequential machine started from the changed state.", "quantifier": "all programs, stops and modifications", "why_tests_cant": "The set of stops and modifications is infinite and depends on latent state (store queue, outstanding RAM reads).", "anchors": ["src/t86/debug.cpp", "src/t86/cpu.cpp: setMemory, setRegisterDebug, setText", "src/t86/ram.cpp"]}
{"id": "C20", "title": "One reply per command, and queries are pure", "statement": "For every command message the VM sends exactly one reply; REASON, PEEK*, REGCOUNT, TEXTSIZE, DATASIZE and unknown commands change no machine state.", "quantifier": "all well-formed command sequences and machine states", "why_tests_cant": "All command sequences.", "anchors": ["src/t86/debug.cpp: Debug::Work"]}
{"id": "C21", "title": "A single step leaves no stepping mode behind", "statement": "After a SINGLESTEP has been reported complete, a following CONTINUE runs freely until a genuine breakpoint, watchpoint, halt or error.", "quantifier": "all programs and stop reasons", "why_tests_cant": "Depends on which event ends the step, in every state.", "anchors": ["src/t86/debug.cpp: Debug::Work", "src/t86/os.cpp: OS::Run"]}
{"id": "C22", "title": "Printing and re-parsing an instruction gives the instruction back", "statement": "For every instruction the assembler can produce without floating-point immediates and without absolute addresses written as negative numbers, its printed form (as sent by PEEKTEXT) is accepted by the assembler and yields the same instruction; the listing of a whole program yields the program.", "quantifier": "all instructions, register numbers and integer operands in the assembler's number range", "why_tests_cant": "Infinitely many instructions.", "anchors": ["src/t86/instruction.cpp: toString", "src/t86-parser/parser.cpp: Instruction", "src/common/parsing.cpp: Lexer"]}
{"id": "C23", "title": "Documented source text assembles to what it says", "statement": "Every instruction written as documented (address prefix, mnemonic, operands in any documented form, any integers in range) assembles to exactly that instruction, and a program of .text and .data sections to exactly the listed instructions and memory cells. Excepted are forms documented but not accepted: negative floating-point constants, MOV R, R + i, and negative absolute addresses.", "quantifier": "all source texts whose tokens follow the documented grammar", "why_tests_cant": "Infinitely many texts.", "anchors": ["src/t86-parser/parser.cpp: Memory, Operand, Imm, Instruction, Text, Data, Parse", "docs/t86.md", "docs/t86-isa.md"]}
{"id": "C24", "title": "Layout does not matter to the assembler", "statement": "Adding spaces, tabs, newlines or comments between tokens of a program text does not change the sequence of tokens read.", "quantifier": "all program texts", "why_tests_cant": "Infinitely many texts.", "anchors": ["src/common/parsing.cpp: Lexer::getNext"]}
{"id": "C25", "title": "Message framing delivers exactly what was sent", "statement": "A sequence of messages sent over the debugger connection is received as the same sequence, whatever way the network splits the payload bytes.", "quantifier": "all message sequences and all segmentations of the payloads (the eight bytes of a length arriving together)", "why_tests_cant": "All segmentations of all messages.", "anchors": ["src/common/TCP.h: SendRaw, Send, Receive"]}
{"id": "C26", "title": "The in-process message channel is a reliable FIFO", "statement": "With one sender and one receiver per direction, for every interleaving, messages are received in the order sent, without loss or duplication, and a blocked receiver is woken by a send.", "quantifier": "all interleavings and message sequences", "why_tests_cant": "All schedules.", "anchors": ["src/common/threads_messenger.h"]}
{"id": "C27", "title": "Splitting and joining text are inverse where they should be", "statement": "Splitting on a separator yields exactly the non-empty pieces between separators, in order; joining non-empty separator-free pieces and splitting again returns the pieces.", "quantifier": "all strings and separators", "why_tests_cant": "Infinitely many strings.", "anchors": ["src/common/helpers.h: split_v, split, join"]}
{"id": "C28", "title": "Numbers survive the wire", "statement": "Every 64-bit value printed by the VM and read back by the debugger is the same value (signed and unsigned).", "quantifier": "all 2^64 values", "why_tests_cant": "2^64 values and all digit strings.", "anchors": ["src/common/helpers.h: svtoi64, svtonum", "src/t86/debug.cpp"]}
{"id": "C29", "title": "Setting and removing a software breakpoint restores the program", "statement": "Setting, enabling, disabling and unsetting software breakpoints in any order never changes the program as the user reads it, and once all are disabled or removed the debuggee's text is exactly the original.", "quantifier": "all programs, all sequences of breakpoint operations", "why_tests_cant": "All operation sequences.", "anchors": ["src/debugger/Native.cpp: SetBreakpoint, UnsetBreakpoint, EnableSoftwareBreakpoint, DisableSoftwareBreakpoint, ReadText"]}
{"id": "C30", "title": "Breakpoints are hit exactly when reached, and are otherwise invisible", "statement": "Continuing a program under the debugger stops exactly when control first reaches an instruction with an enabled breakpoint (or at program end), with the machine in the state the undebugged program has at that point; continuing again executes the original instruction.", "quantifier": "all programs, breakpoint sets, and numbers of continues", "why_tests_cant": "All programs and breakpoint sets; requires a simulation over unbounded runs.", "anchors": ["src/debugger/Native.cpp: ContinueExecution, StepOverBreakpoint, WaitForDebugEvent"]}
{"id": "C31", "title": "Hardware watchpoint slots are allocated consistently", "statement": "At most four watchpoints exist, two watchpoints never share a debug register, each watchpoint's register holds its address and is enabled, setting or removing one changes nothing else of the debuggee, and a hit is reported with the watched address.", "quantifier": "all sequences of watchpoint operations", "why_tests_cant": "All operation sequences.", "anchors": ["src/debugger/Native.cpp: SetWatchpointWrite, RemoveWatchpoint, GetFreeDebugRegister", "src/debugger/Arch.h"]}
{"id": "C32", "title": "Debug control register encoding", "statement": "Activating or deactivating a debug register changes only its own enable bit, and the index of the register reported responsible is the one the VM recorded.", "quantifier": "all register contents and indices", "why_tests_cant": "2^64 register contents.", "anchors": ["src/debugger/Arch.h", "src/t86/cpu.cpp: checkWrite"]}
{"id": "C33", "title": "Debugger-side reads and writes reach the VM unchanged", "statement": "Registers, memory cells and instructions read or written by the debugger library are exactly those of the VM: the request encoding, the VM's decoding, the reply encoding and the debugger's decoding compose to the identity.", "quantifier": "all machine states, register sets, addresses and values", "why_tests_cant": "All states and values; both string encoders and decoders are involved.", "anchors": ["src/debugger/T86Process.cpp", "src/t86/debug.cpp"]}
{"id": "C34", "title": "Line mapping answers are consistent", "statement": "The address reported for a source line maps back to a set of lines containing it, and the line reported for an address is the largest line mapped to that address.", "quantifier": "all line tables", "why_tests_cant": "All tables.", "anchors": ["src/debugger/Source/LineMapping.h", "src/debugger/Source/Source.cpp"]}
{"id": "C35", "title": "The variable shown is the innermost visible one", "statement": "At any address, looking up a name yields a declaration of that name that is active there, and one is found if there is any; where the variables of a scope are listed before its subscopes it is the one of the innermost active scope.", "quantifier": "all debug-information trees, addresses, names", "why_tests_cant": "All trees.", "anchors": ["src/debugger/Source/Source.cpp: GetActiveVariables, FindVariables"]}
{"id": "C36", "title": "Location expressions evaluate as documented", "statement": "PUSH, ADD and BASE_REG_OFFSET evaluate as the documentation's stack machine for every program of those instructions, without changing the debuggee.", "quantifier": "all location programs, register values, memories", "why_tests_cant": "All programs.", "anchors": ["src/debugger/Source/ExpressionInterpreter.h", "docs/source-info.md"]}
{"id": "C37", "title": "User expressions are parsed with the intended operators", "statement": "Every text that is an expression of the documented grammar (without <= and >=) is accepted, and its operator tree is the only one the grammar gives it; whatever is accepted has the tree of its longest beginning that is an expression; the parser always ends.", "quantifier": "all expression texts", "why_tests_cant": "All texts.", "anchors": ["src/debugger/Source/Expression*.cpp, ExpressionParser"]}
{"id": "C38", "title": "Program builder labels resolve to the right instruction", "statement": "After patching, every jump emitted for a label goes to the instruction the label was placed at, and data addresses refer to the stored values.", "quantifier": "all sequences of builder operations", "why_tests_cant": "All sequences.", "anchors": ["src/t86/program/programbuilder.h: ProgramBuilder", "src/t86/program/label.h: Label", "src/t86/instruction.cpp: PatchableJumpInstruction::setDestination"]}
{"id": "C39", "title": "Registers shown at an error stop are those of the retired prefix", "statement": "When the VM stops with CPU_ERROR the registers reported are those produced by the instructions executed before (and including) the faulting one.", "quantifier": "all programs and faults", "why_tests_cant": "All pipeline states at the fault.", "anchors": ["src/t86/os.cpp: OS::Run", "src/t86/cpu/reservation_station.cpp: Entry::retire"]}
{"id": "C40", "title": "Speculation can never crash the VM", "statement": "A program whose sequential execution is free of faults never makes the VM fail.", "quantifier": "all programs and configurations", "why_tests_cant": "Wrong-path execution depends on timing in every configuration.", "anchors": ["src/t86/cpu/alu.cpp: divide", "src/t86/cpu/register_allocation_table.cpp: rename, translate", "src/t86/cpu/memory_writes_manager.cpp"]}
{"id": "C41", "title": "Stepping over and stepping out stop where promised", "statement": "After any history of breakpoint operations, continuing and stepping, without watchpoints and processor faults: stepping over a non-call instruction equals a single step. Stepping over a call executes the call and at least one instruction more and stops, reported as a step, when the program is at the instruction behind the call with the base pointer it had at the call, unless that place carries a disabled breakpoint; an enabled breakpoint elsewhere, met from the second instruction of the callee on, stops earlier and is reported; otherwise the program has ended. Stepping out repeats this and ends with the execution of a RET, at a breakpoint or at the end. The breakpoints stay as they were.", "quantifier": "all programs, call depths, breakpoint sets and histories of calls", "why_tests_cant": "All programs and depths.", "anchors": ["src/debugger/Native.cpp: PerformStepOver, PerformStepOut, DoRawSingleStep"]}
{"id": "C42", "title": "Configuration options are taken literally and at most once", "statement": "For every command line, each option given once has exactly the given value, giving an option twice is rejected, and defaults apply exactly to options not given.", "quantifier": "all argument vectors", "why_tests_cant": "All argument vectors.", "anchors": ["src/common/config.cpp"]}
{"id": "C43", "title": "Text utilities: prefix test and whitespace squashing", "statement": "is_prefix_of decides the prefix relation; squash_strip_whitespace yields the words of the input in order, each two neighbours separated by exactly one whitespace character of the input, with none at the ends, and is idempotent.", "quantifier": "all strings", "why_tests_cant": "Infinitely many strings.", "anchors": ["src/common/helpers.h: is_prefix_of, squash_strip_whitespace"]}
{"id": "C44", "title": "Ordinary instructions that write IP behave the same stepped and run", "statement": "A program that assigns IP with an ordinary instruction (MOV IP, 3) executes the same instructions whether it is single-stepped or run.", "quantifier": "all programs accepted by the assembler", "why_tests_cant": "Needs agreement of two schedules over every program.", "anchors": ["src/t86/cpu.cpp: predictNext, unrollSpeculation", "src/t86/instruction.cpp: MOV::validate"]}
{"id": "C45", "title": "Every arithmetic instruction has a result for every operand pair", "statement": "Every binary ALU instruction other than a division by zero delivers the mathematical result reduced to 64 bits, whatever the operands: a shift count of 64 or more shifts everything out, and no multiplication makes the VM trap.", "quantifier": "all pairs of 64-bit operands", "why_tests_cant": "2^128 operand pairs; the failing ones are isolated.", "anchors": ["src/t86/cpu/alu.cpp"]}
{"id": "C46", "title": "LEA computes the documented address", "statement": "For each of the operand forms [R+i], [R*i], [R+R], [R+i+R], [R+R*i], [R+i+R*i], LEA puts exactly the number written between the brackets, modulo 2^64, into its register and changes nothing else.", "quantifier": "all register values, offsets, scales and all operand forms", "why_tests_cant": "Unbounded values; the one form that fails is not exercised by any test.", "anchors": ["src/t86/instruction.cpp: LEA::operands, LEA::execute"]}
{"id": "C47", "title": "Stores in flight never corrupt the VM's own memory", "statement": "Any number of stores to the same address may be in flight at once; the VM then still behaves as if they were carried out one after the other.", "quantifier": "all programs, configurations and timings", "why_tests_cant": "Needs two stores to one address in the pipeline at once, in every configuration.", "anchors": ["src/t86/cpu/memory_writes_manager.cpp", "src/t86/cpu/memory_writes.cpp"]}
{"id": "C48", "title": "Split length headers and failed sends never corrupt the stream", "statement": "If the network delivers the length of a message in several parts, or a single send call fails, then the receiver still gets exactly the messages sent, or one side reports an error; no message is altered, dropped or extended silently.", "quantifier": "all segmentations of the byte stream and all failure points of send", "why_tests_cant": "Depends on how the network cuts the stream and when it fails.", "anchors": ["src/common/TCP.h: Receive, SendRaw"]}
{"id": "C49", "title": "Negative absolute addresses can be printed and read back", "statement": "The printed form of an instruction with an absolute address that was written as a negative number is accepted again.", "quantifier": "all instructions the assembler accepts", "why_tests_cant": "Infinitely many instructions.", "anchors": ["src/t86/instruction.cpp: toString", "src/t86-parser/parser.cpp: Memory, SimpleMemory", "src/common/parsing.cpp: Lexer::ParseNumber"]}
{"id": "C50", "title": "The assembler always comes to an end", "statement": "On every text the assembler ends, with a program or with an error; and every instruction of a program it produces has one of the accepted operand forms, with all numbers in the range of an int.", "quantifier": "all byte strings", "why_tests_cant": "Infinitely many texts.", "anchors": ["src/t86-parser/parser.cpp: Parse, Section, Text, Data", "src/common/parsing.cpp: Lexer"]}
{"id": "C51", "title": "A text that cannot be assembled is reported as a parse error", "statement": "Whatever text is given to the assembler, if it does not produce a program it reports a parse error; it never ends in another exception, a failed assertion or undefined behaviour.", "quantifier": "all byte strings", "why_tests_cant": "Infinitely many texts.", "anchors": ["src/t86-parser/parser.cpp: Memory, getRegister", "src/common/parsing.cpp: ParseNumber", "src/t86-cli/main.cpp"]}
{"id": "C52", "title": "The assembler never misreads what it accepts", "statement": "Whenever the assembler accepts an instruction, the instruction it produces is the one that is written.", "quantifier": "all source texts", "why_tests_cant": "Infinitely many texts.", "anchors": ["src/t86-parser/parser.cpp: Memory, Operand, Imm, getRegister"]}
{"id": "C53", "title": "No message but TERMINATE ends the VM", "statement": "Whatever text a debugger sends to a stopped VM, the VM answers it; it ends only when told to terminate.", "quantifier": "all messages and all stopped machines", "why_tests_cant": "Infinitely many messages.", "anchors": ["src/t86/debug.cpp: Work", "src/t86/os.cpp: DebuggerMessage", "src/t86/cpu.cpp: getMemory, setMemory, setText, setRegisterDebug"]}
{"id": "C54", "title": "Only the names of registers are taken as such", "statement": "Setting a register through the debugger library sets the register of that name, or fails if there is none.", "quantifier": "all texts given as the name of a register", "why_tests_cant": "Infinitely many texts.", "anchors": ["src/debugger/T86Process.cpp: SetRegisters, CheckRegisterName", "src/common/helpers.h: svtonum"]}
{"id": "C55", "title": "Instructions written by the user are kept, with or without breakpoints", "statement": "Whatever mix of breakpoint operations and writes of instructions a user performs on a stopped program, the program they read is the one they wrote, and once no breakpoint is enabled the machine holds exactly that program; text that is no instruction is refused.", "quantifier": "all sequences of breakpoint operations and writes of instructions, all programs", "why_tests_cant": "Infinitely many sequences; the state of the breakpoint under a write matters.", "anchors": ["src/debugger/Native.cpp: WriteText, ReadText, SetBreakpoint, UnsetBreakpoint, EnableSoftwareBreakpoint, DisableSoftwareBreakpoint"]}
{"id": "C56", "title": "A breakpoint can be removed from every instruction", "statement": "Setting a breakpoint on any instruction of an assembled program and removing it again leaves the program as it was.", "quantifier": "all instructions", "why_tests_cant": "Infinitely many instructions.", "anchors": ["src/debugger/Native.cpp: CreateSoftwareBreakpoint, DisableSoftwareBreakpoint", "src/t86/operand.cpp: toString"]}
{"id": "C57", "title": "All breakpoints can be replaced at once", "statement": "Replacing the set of breakpoints yields exactly the given breakpoints, enabled or disabled as given, and the program is still read unchanged.", "quantifier": "all old and new sets of breakpoints", "why_tests_cant": "Infinitely many sets.", "anchors": ["src/debugger/Native.cpp: SetAllBreakpoints, SetAllWatchpoints"]}
{"id": "C58", "title": "A removed watchpoint is gone", "statement": "After removing a watchpoint the VM no longer stops for it.", "quantifier": "all programs and watchpoints", "why_tests_cant": "All later writes of all programs.", "anchors": ["src/debugger/Native.cpp: RemoveWatchpoint, MapReasonToEvent", "src/debugger/Arch.h: DeactivateDebugRegister"]}
{"id": "C59", "title": "A BKPT of the program's own can be passed", "statement": "A program containing BKPT instructions can be continued or stepped past them, with and without the debugger's breakpoints.", "quantifier": "all programs with a BKPT instruction and all histories of calls reaching it", "why_tests_cant": "Infinitely many programs and histories.", "anchors": ["src/debugger/Native.cpp: ContinueExecution, WaitForDebugEvent, StepOverBreakpoint", "src/t86/cpu.cpp: tick"]}
{"id": "C60", "title": "A breakpoint outside the program is refused harmlessly", "statement": "Setting a breakpoint at an address behind the end of the program fails and leaves the debugged program usable.", "quantifier": "all addresses outside the program", "why_tests_cant": "Infinitely many addresses.", "anchors": ["src/debugger/Native.cpp: SetBreakpoint, CreateSoftwareBreakpoint", "src/t86/cpu.cpp: setText"]}
{"id": "C61", "title": "Continuing after a watchpoint runs on", "statement": "After any stop, in particular after a watchpoint hit while stepping, continuing runs the program up to the next breakpoint, watchpoint or the end.", "quantifier": "all histories of breakpoint operations, watchpoints, continuing and stepping", "why_tests_cant": "Infinitely many histories.", "anchors": ["src/debugger/Native.cpp: ContinueExecution, PerformSingleStep", "src/t86/cpu.cpp: tick, checkWrite"]}
{"id": "C62", "title": "Every enabled breakpoint met while stepping over or out is reported", "statement": "While stepping over or out, execution reaching an enabled user breakpoint is always stopped there and reported: on the first instruction of the callee, on the instruction behind the call in a deeper recursive call, on a CALL.", "quantifier": "all programs, breakpoint sets and histories", "why_tests_cant": "Infinitely many programs and histories.", "anchors": ["src/debugger/Native.cpp: PerformStepOver, PerformStepOut"]}
{"id": "C63", "title": "Stepping over a call stops behind it", "statement": "Stepping over a call stops at the instruction behind the call also if that instruction carries a disabled breakpoint, if the call is the last instruction of the program and never comes back, or if the call writes to a watched address.", "quantifier": "all programs, breakpoint sets, watchpoints and histories", "why_tests_cant": "Infinitely many programs and histories.", "anchors": ["src/debugger/Native.cpp: PerformStepOver"]}
{"id": "C64", "title": "Stepping over and out report faults and leave a debugger that continues properly", "statement": "A processor fault in a function that is stepped over is reported as such; after stepping out was stopped by a breakpoint, continuing runs on to the next stop.", "quantifier": "all programs and histories", "why_tests_cant": "Infinitely many programs and histories.", "anchors": ["src/debugger/Native.cpp: PerformStepOver, PerformStepOut, DoRawSingleStep"]}
{"id": "C65", "title": "The program builder refuses instructions that write the program counter as data", "statement": "Adding an instruction other than a jump whose destination register is the program counter throws and leaves the builder as it was.", "quantifier": "all instructions and builder states", "why_tests_cant": "All instruction forms and operands.", "anchors": ["src/t86/program/programbuilder.h: add", "src/t86/instruction.cpp: validate"]}
{"id": "C66", "title": "The order of declarations does not matter", "statement": "At any address, looking up a name yields the declaration of the innermost active scope also if a variable of an outer scope is listed behind the inner scope.", "quantifier": "all debug-information trees, addresses, names", "why_tests_cant": "All trees.", "anchors": ["src/debugger/Source/Source.cpp: FindVariables"]}
{"id": "C67", "title": "DEREFERENCE in a location expression works as documented", "statement": "DEREFERENCE pops a value and pushes the contents of the memory cell with that address; a location program that takes more values than there are is refused.", "quantifier": "all location programs, register values, memories", "why_tests_cant": "All programs and memories.", "anchors": ["src/debugger/Source/ExpressionInterpreter.cpp: Interpret", "docs/source-info.md"]}
{"id": "C68", "title": "An accepted expression is evaluated as a whole", "statement": "No part of the text of an accepted expression is silently ignored, and the comparisons <= and >= work.", "quantifier": "all expression texts", "why_tests_cant": "All texts.", "anchors": ["src/debugger/Source/ExpressionParser.cpp: comparison", "src/debugger/Source/ExpressionParser.h: ParseExpression"]}
{"id": "C69", "title": "Any instruction on any configuration makes progress", "statement": "Every instruction of the instruction set retires, also one that both loads from memory and stores to memory (MOV [R0], [R1]; PUSH [2]), and whatever number of ALUs and RAM gates is configured.", "quantifier": "all programs and configurations", "why_tests_cant": "Liveness over all programs and configurations.", "anchors": ["src/t86/cpu/reservation_station.cpp: fetchAndStartExecution", "src/t86/cpu/writes_manager.cpp: hasUnspecifiedWrites", "src/t86/ram.cpp: RAM::read"]}
{"id": "C70", "title": "A run ends as failed exactly when the processor reported an error, and as successful only after HALT or on request", "statement": "When the VM's run loop returns, it returns failure exactly when at some tick the processor threw a CPU error; it returns success only if the program executed HALT or the debugger asked for termination. Without a debugger, success means HALT was executed.", "quantifier": "All programs, configurations, debugging sessions (including none) and lengths of run.", "why_tests_cant": "Over all sessions and the position of the error in them.", "anchors": ["src/t86/os.cpp: OS::Run", "src/t86/debug.h: Debug::Work"]}
{"id": "C71", "title": "Looking at an expression changes nothing", "statement": "Evaluating an expression whose text has no '=' leaves the debuggee (registers, memory, program, debug registers) and what the debugger keeps about it (breakpoints, watchpoints) as they were, whether a value or an error is the result. The only exception is a debuggee that is lost (C75).", "quantifier": "all stopped debuggees, debug information, expression texts without assignment", "why_tests_cant": "All texts, types and machine states.", "anchors": ["src/debugger/Source/Source.cpp: EvaluateExpression", "src/debugger/Source/Expression.cpp"]}
{"id": "C72", "title": "The value shown is the value of the expression", "statement": "For an expression without assignment, the debugger shows exactly the value it has by the rules of C over the variables in scope: variables are read where their location expression says (C35, C36), int, char, float and pointer objects are the words there, element i of an array is i sizes behind its beginning, a member is at its offset, pointer arithmetic moves by elements, integer operators are those of 64 bits with truncating division. Every expression that has such a value is shown with it, and it has at most one.", "quantifier": "all stopped debuggees, debug information without DEREFERENCE (C67), expressions without assignment, depths of nested types", "why_tests_cant": "All expressions, nested types and memory contents.", "anchors": ["src/debugger/Source/Expression.cpp: ExpressionEvaluator", "src/debugger/Source/Source.cpp: EvaluateExpression, GetVariableLocation, GetVariableTypeInformation"]}
{"id": "C73", "title": "An assignment writes the value to the object and nothing else", "statement": "a = b, for int, char and pointer objects and arrays and structures of them, stores the value of b in the words of the object a, in memory or in a register, changes nothing else in the debuggee, and shows the new value; a variable assigned to shows the assigned value afterwards.", "quantifier": "all stopped debuggees, debug information, left and right sides of the same type, nested objects", "why_tests_cant": "All types, locations and machine states.", "anchors": ["src/debugger/Source/Expression.cpp: Assignment, SetRaw", "src/debugger/Native.h: SetRegister, SetMemory"]}
{"id": "C74", "title": "Assigning a float stores the float", "statement": "After f = d for a float variable f and a float value d, f has the value d.", "quantifier": "all doubles, locations and machine states", "why_tests_cant": "All doubles.", "anchors": ["src/debugger/Source/Expression.cpp: Assignment, SetRaw"]}
{"id": "C75", "title": "No expression ends the debugger or loses the debuggee", "statement": "Whatever text is entered as an expression, the result is a value or an error message, and the debugger and the debuggee go on.", "quantifier": "all texts, debug information and machine states", "why_tests_cant": "All texts and values.", "anchors": ["src/debugger/Source/Source.cpp: EvaluateExpression", "src/debugger/Source/Expression.cpp", "src/debugger/T86Process.cpp: ReadMemory"]}
{"id": "C76", "title": "Operators are those of C", "statement": "The difference of two pointers counts elements, && and || do not evaluate their right side if the left side decides, and chars can be subtracted.", "quantifier": "all operands", "why_tests_cant": "All operands.", "anchors": ["src/debugger/Source/Expression.cpp: SubValues, BinaryOperator"]}
{"id": "C77", "title": "The debugger and the VM read one executable file as it is documented", "statement": "For every file written by the grammar of the documentation (sections .text, .data, .debug_line, .debug_info in any order and number, then .debug_source), the debugger knows exactly the address of each line, the lines of the source, the entries and the types they describe (the last section of a kind counts, the last entry for a line, the first entry with a type ID), and the VM loads exactly the instructions and cells of .text and .data, whatever the debugging sections say.", "quantifier": "all texts that are files by the grammar, of any size, nesting and layout", "why_tests_cant": "All files.", "anchors": ["src/debugger/Source/Parser.cpp: Parser::Parse, ParseDIE, ParseATTR, ParseExprLoc, DebugLine", "src/t86-parser/parser.cpp: Parser::Parse", "src/dbg-cli/CLI.h: ParseDebugInfo", "docs/source-info.md"]}
{"id": "C78", "title": "Reading debugging information ends on every file", "statement": "Whatever the contents of the file, the reader of debugging information returns or throws; it neither loops, nor recurses without end, nor reaches undefined behaviour. It ends the debugger if and only if the first token of the file is malformed.", "quantifier": "all texts", "why_tests_cant": "All texts, including truncated and binary ones.", "anchors": ["src/debugger/Source/Parser.cpp", "src/debugger/Source/Parser.h: Parser", "src/common/parsing.h: Lexer"]}
{"id": "C79", "title": "Debugging information that departs from the documented grammar is refused", "statement": "A file whose debugging sections are not written by the grammar of the documentation is refused with an error.", "quantifier": "all texts", "why_tests_cant": "All texts.", "anchors": ["src/debugger/Source/Parser.cpp: ParseDIE, ParseExprLoc"]}
{"id": "C80", "title": "Incomplete debugging information is harmless", "statement": "Whatever entries and attributes are missing, the debugger takes the debugging information and only features that need the missing parts are unavailable (docs/source-info.md).", "quantifier": "all entries", "why_tests_cant": "All combinations of missing entries and attributes.", "anchors": ["src/debugger/Source/Source.cpp: RegisterDebuggingInformation", "src/debugger/Source/Type.h"]}
{"id": "C81", "title": "Stepping by lines stops where the next line begins", "statement": "A source-level step into executes instructions until the first one reached at which a line of the source begins, and reports a step; or it stops earlier, before an enabled breakpoint within the line, with a write to a watched cell, or with the end of the program, and reports that. Breakpoints set by line are those at the address of the line, and a line without instructions is refused. This holds after any history of library calls, breakpoints by line and steps by line.", "quantifier": "all programs, line tables, histories of calls, breakpoints and watchpoints", "why_tests_cant": "All programs, line tables and histories.", "anchors": ["src/debugger/Source/Source.cpp: StepIn, SetSourceSoftwareBreakpoint, UnsetSourceSoftwareBreakpoint", "src/debugger/Native.cpp: PerformSingleStep, DoRawSingleStep"]}
{"id": "C82", "title": "Stepping over by lines", "statement": "A source-level step over does the same with calls executed as a whole: a completed step is at an instruction at which a line begins, and the only other ends are an enabled breakpoint at the instruction reported and the end of the program.", "quantifier": "all programs, line tables, histories and breakpoints (no watchpoints)", "why_tests_cant": "All programs, line tables and histories.", "anchors": ["src/debugger/Source/Source.cpp: StepOver", "src/debugger/Native.cpp: PerformStepOver"]}
{"id": "C83", "title": "Steps by line leave nothing behind and miss no breakpoint", "statement": "Every enabled breakpoint reached during a source-level step is reported, and continuing after such a step runs on.", "quantifier": "all programs and breakpoints", "why_tests_cant": "All programs.", "anchors": ["src/debugger/Source/Source.cpp: StepOver", "src/debugger/Native.cpp: PerformStepOver"]}
{"id": "C84", "title": "A debugging session at the command line does what its lines ask for", "statement": "For any sequence of lines typed at the debugger's prompt (commands abbreviated as the help allows, any blanks) that set, remove, enable and disable breakpoints by address or by line, set watchpoints, step, step over, continue, finish or display something: the debuggee, the breakpoints and the watchpoints are afterwards what the corresponding calls of the library specify, every stop is announced once with its reason and place, a completed step is not announced as an event, and after the program has ended every request to move is refused and changes nothing.", "quantifier": "all programs, sequences of lines, abbreviations, histories", "why_tests_cant": "All sequences of lines and programs.", "anchors": ["src/dbg-cli/CLI.h: Cli, HandleCommand, HandleBreakpoint, HandleWatchpoint, HandleStepi, HandleNexti, HandleStep, HandleNext, HandleFinish, HandleContinue, ReportDebugEvent", "src/common/helpers.h: split_v, squash_strip_whitespace"]}
{"id": "C85", "title": "Displaying changes nothing", "statement": "A line that asks for registers, memory, disassembly, source, breakpoints, watchpoints or help leaves the debuggee, the breakpoints and all settings exactly as they were, whatever the state and even if the request fails.", "quantifier": "all lines of the kind, all states of debugger and debuggee", "why_tests_cant": "All states.", "anchors": ["src/dbg-cli/CLI.h: HandleDisassemble, HandleSource, HandleRegister, HandleMemory, PrettyPrintText, PrettyPrintCode"]}
{"id": "C86", "title": "`run` starts the program on a machine of the size asked for", "statement": "In a new front end, a line that is `run` or a prefix of it, with any of the options --reg-count=, --float-reg-count= and --data-size= anywhere behind it, starts the program of the given file in front of its first instruction, on a machine with that many registers, float registers and memory cells (8, 4 and 1024 where nothing is asked for), and says so; the lines that follow do what they ask for.", "quantifier": "all files that can be read, option values and orders of options, sequences of lines", "why_tests_cant": "All programs, sizes and lines.", "anchors": ["src/dbg-cli/CLI.h: HandleRun, ParseOptionalCommand", "src/debugger/T86Process.h: T86Process", "src/t86/os.cpp: OS::Run"]}
{"id": "C87", "title": "Running again keeps the breakpoints and watchpoints", "statement": "After any session at the command line, `run` ends the old debuggee wherever it stands and starts the program from its beginning; the enabled breakpoints and the watchpoints are the same as before, and are met by the lines that follow.", "quantifier": "all sessions, programs, sets of enabled breakpoints and watchpoints", "why_tests_cant": "All sessions and stopping points.", "anchors": ["src/dbg-cli/CLI.h: HandleRun, ExitProcess", "src/debugger/Native.h: SetAllBreakpoints, SetAllWatchpoints", "src/t86/os.cpp: OS::Run"]}
{"id": "C88", "title": "Values typed at the command line are stored, and what is stored is shown", "statement": "A line that sets memory cells to numbers, stores a quoted string from a cell on (with the escapes for line feed, tab and zero, and a zero behind it) or sets a register changes exactly these words to these values and says nothing; a line that asks for memory cells, a string in memory or a register shows exactly what is there, cell by cell, and changes nothing.", "quantifier": "all addresses, values, strings, registers, machine states and abbreviations", "why_tests_cant": "All values and states.", "anchors": ["src/dbg-cli/CLI.h: HandleMemory, HandleRegister, ParseString"]}
{"id": "C89", "title": "Any string can be stored from the command line", "statement": "A string typed between quotes is stored as typed, whatever characters are in it.", "quantifier": "all strings", "why_tests_cant": "All strings.", "anchors": ["src/dbg-cli/CLI.h: HandleMemory, ParseString, Run", "src/common/helpers.h: squash_strip_whitespace"]}
{"id": "C90", "title": "A mistake in a line is answered with an error message", "statement": "Whatever is wrong with a line, the debugger says so and reads the next one.", "quantifier": "all lines, states and executable files", "why_tests_cant": "All lines.", "anchors": ["src/dbg-cli/CLI.h: HandleMemory, HandleAssemble, HandleAttach, Attach, HandleBreakpoint, HandleRun, ParseProgram"]}
{"id": "C91", "title": "Listings show the program and the source as they are", "statement": "At the command line, a line that asks for instructions (a range, some from an address on, all of a function, those around the place where the program stands) or for lines of the source displays exactly those, in order: the instructions of the program as written, with breakpoints shown only by a mark that tells whether they are enabled, and an arrow at the place where the program stands. Nothing else happens.", "quantifier": "all programs, sources, sessions before, ranges and abbreviations", "why_tests_cant": "All programs and all sessions.", "anchors": ["src/dbg-cli/CLI.h: HandleDisassemble, HandleSource, PrintText, PrintCode, PrettyPrintText, PrintFunction"]}
{"id": "C92", "title": "After a move the debugger tells why and where the program has stopped", "statement": "A line that moves the program (step, next, finish, continue, istep, inext) and is not refused prints the reason of the stop, unless it is the completed step, and then the instructions or source lines around the place where the program now stands, with the arrow at that place; after the end of the program no place is shown.", "quantifier": "all programs, sources, sessions before and kinds of move", "why_tests_cant": "All programs and all sessions.", "anchors": ["src/dbg-cli/CLI.h: HandleStep, HandleNext, HandleFinish, HandleContinue, HandleIstep, HandleInext, ReportDebugEvent, ReportBreak, PrettyPrintCode"]}
{"id": "C93", "title": "A whole run of the debugger at the command line", "statement": "From its start until the end of its input the debugger reads every line once and in order, does what each asks for, greets first and prints nothing for lines that are not read; when the input ends it ends the program it has started, and then itself, without an error, whether the program has finished by then, stands at a breakpoint or has not moved.", "quantifier": "all programs, inputs, machine sizes and stopping points", "why_tests_cant": "All inputs.", "anchors": ["src/dbg-cli/CLI.h: Run, ExitProcess, HandleRun", "src/dbg-cli/main.cpp: main", "src/debugger/Native.h: Terminate"]}
{"id": "C94", "title": "The lists of breakpoints and watchpoints are complete", "statement": "After any session at the command line, `breakpoint list` shows exactly the breakpoints that are set, each once and in the order of their addresses, with address, state and function, and `watchpoint list` exactly the watched addresses, each once and in order. Nothing else happens. In particular no line that is typed, whatever it is, brings the tables of the debugger out of order.", "quantifier": "all programs, sources, sessions before and abbreviations", "why_tests_cant": "All sessions.", "anchors": ["src/dbg-cli/CLI.h: HandleBreakpoint, HandleWatchpoint", "src/debugger/Native.h: GetBreakpoints, GetWatchpoints"]}
{"id": "C95", "title": "The list of breakpoints shows lines as the user counts them", "statement": "The line at which a breakpoint is listed is the number by which it is set, and which is announced when it is hit.", "quantifier": "all programs, sources and sessions", "why_tests_cant": "All sessions.", "anchors": ["src/dbg-cli/CLI.h: HandleBreakpoint, DebugEventToString"]}
{"id": "C96", "title": "Commands do what their help says", "statement": "`disassemble range b e` shows the instructions from b to e inclusive, and `breakpoint unset` removes a breakpoint.", "quantifier": "all programs, ranges, locations and sessions", "why_tests_cant": "All sessions.", "anchors": ["src/dbg-cli/CLI.h: DISASSEMBLE_USAGE, BP_USAGE, HandleDisassemble, HandleBreakpoint"]}
{"id": "C97", "title": "Sessions that change the program go on from the changed program", "statement": "Lines that set registers, write numbers or strings to memory or replace instructions (`assemble interactive`, with the instructions on the lines that follow up to an empty one) may come between any other lines of a session. Each changes exactly what it names: later steps, breakpoints, watches, listings and stops are those of the changed program in the changed state, breakpoints that are set stay set, also where an instruction is replaced, and nothing is printed for a change.", "quantifier": "all programs, inputs, sequences of lines, changes and abbreviations", "why_tests_cant": "All sessions.", "anchors": ["src/dbg-cli/CLI.h: HandleRegister, HandleMemory, HandleAssemble, InteractiveAssemble", "src/debugger/Native.h: SetRegister, SetMemory, WriteText"]}
{"id": "C98", "title": "Attaching to a VM starts a session as starting one does", "statement": "`attach` with a port, in a new debugger or at any point of any session: the debugger leaves whatever was being debugged and is in front of the first instruction of the program that the VM at the port has loaded, with no breakpoints and with the debugging information of the file it was given, or what it had if none was given. Nothing is printed. From then on lines do what they do in a debugger that started the VM itself, as long as the VM is there.", "quantifier": "all programs, ports, earlier sessions, VMs of at most ten registers and sequences of lines", "why_tests_cant": "All VMs and sessions.", "anchors": ["src/dbg-cli/CLI.h: Attach, HandleAttach, ExitProcess", "src/debugger/T86Process.h: T86Process"]}
{"id": "C99", "title": "An attached VM can be debugged whatever its size", "statement": "Attached to a VM started with any number of registers, the debugger can write registers and reports the breakpoints that are hit. (Refuted: the debugger takes every attached VM to have ten registers. With more than ten in the VM no register can be written and no breakpoint that is hit is ever reported, because both write back all registers.)", "quantifier": "all VMs, registers, values and stops", "why_tests_cant": "All sizes of the VM.", "anchors": ["src/debugger/T86Process.h: SetRegisters, T86Process", "src/debugger/Native.h: SetRegister, MapReasonToEvent"]}
{"id": "C100", "title": "`expression` displays the value of the expression, its type and its number, and keeps it", "statement": "For an expression that has a value in the stopped program (C72), `expression` (or `print`, or an abbreviation) prints one line: the type of the value, the number under which it can be used later, and the value: numbers in decimal, chars in quotes, pointers as addresses, pointers to and arrays of chars with the string in memory up to the next zero, arrays and structures by their elements. The value is kept under that number and nothing else changes. Whatever line is printed is the value's, otherwise there is an error message. For an assignment, what is displayed and kept is the value after the assignment, and exactly the assigned object has changed.", "quantifier": "all programs, debugging informations, states, expressions and earlier values", "why_tests_cant": "All states and expressions, nested types of any depth.", "anchors": ["src/dbg-cli/CLI.h: HandleExpression", "src/debugger/Source/Source.cpp: TypedValueToString, TypedValueTypeToString, TypeToString", "src/debugger/Source/Source.cpp: EvaluateExpression"]}
{"id": "C101", "title": "`frame` displays the function and the variables in scope with their values", "statement": "In a stopped program `frame` prints the function that is being executed with its first address and the one after its last, then one line for each variable declared in a scope around the instruction pointer, in the order of the names: its declared type, its name and its value, or nothing for a variable that cannot be evaluated. Nothing changes. (Proved for variables whose names lex as one identifier and whose values can be displayed; for unsigned variables see C102.)", "quantifier": "all programs, debugging informations, states and variables", "why_tests_cant": "All nestings of scopes and all states.", "anchors": ["src/dbg-cli/CLI.h: HandleFrame, PrintFunctionInfo", "src/debugger/Source/Source.cpp: GetScopedVariables, GetFunctionNameByAddress"]}
{"id": "C102", "title": "`frame` leaves out what it cannot display", "statement": "A variable `frame` cannot display is left out and the debugger goes on. (Refuted: a variable of the type unsigned in scope, at whatever location and with whatever value, ends the debugger.)", "quantifier": "all programs, states and variables of the type unsigned", "why_tests_cant": "All states.", "anchors": ["src/dbg-cli/CLI.h: PrintFunctionInfo", "src/debugger/Source/Expression.cpp: EvaluateTypeAndLocation"]}
{"id": "C103", "title": "The characters displayed for an array of chars are those of the array", "statement": "What is displayed for an array of chars are characters of the array. (Refuted: if none of them is zero, what lies in memory after the array is displayed as well, up to the next zero, for every array and memory.)", "quantifier": "all arrays and contents of memory", "why_tests_cant": "All arrays and memories.", "anchors": ["src/debugger/Source/Source.cpp: TypedValueToString, ReadMemoryAsString"]}
{"id": "C104", "title": "t86-cli prints what the program prints and ends when the program ends", "statement": "t86-cli, given a file: if it cannot be opened, the process writes a message, prints nothing and exits with status 3; if the text is not a program, with status 2. Otherwise what has been printed at any time is exactly what the instructions of the program, executed one after the other from its beginning, have printed so far; if the process exits without a message the program has reached its HALT; it never waits for a debugger that was not asked for. If no execution of the program takes more than m instructions, the process has ended after 89 * (m + 1) ticks.", "quantifier": "all files, programs, inputs, numbers of registers, memory sizes and moments of the run", "why_tests_cant": "All files, all programs, all moments of unbounded runs.", "anchors": ["src/t86-cli/main.cpp: main", "src/t86/os.cpp: OS::Run", "src/t86/cpu.cpp: Cpu::tick, Cpu::start"]}
{"id": "C105", "title": "What cannot be started is reported by t86-cli", "statement": "A file that cannot be run makes t86-cli write a message and exit with a status that says so. (Refuted: if the first characters are no token, whatever follows, and if the data do not fit into the memory, the process dies of an exception that nobody catches; the same characters later in the file are reported.)", "quantifier": "all files", "why_tests_cant": "All files.", "anchors": ["src/t86-cli/main.cpp: main", "src/t86-parser/parser.h: Parser::Parser", "src/t86/cpu.cpp: Cpu::start"]}
{"id": "C106", "title": "The exit status of t86-cli tells whether the program failed", "statement": "If the program is ended by an error of the CPU the exit status of t86-cli is not that of success. (Refuted: for every program that was started and every run the status is 0.)", "quantifier": "all programs, inputs and runs", "why_tests_cant": "All runs.", "anchors": ["src/t86-cli/main.cpp: main", "src/t86/os.cpp: OS::Run"]}
{"id": "C107", "title": "A well-formed program never brings the VM down, and t86-cli runs it as the sequential machine does", "statement": "Take a program whose registers all exist, whose divisors are constants for which the division is defined, that converts no doubles to integers and whose instructions do not write a register twice, and in which no two stores that can be in the reservation station together go to one address (a condition on the program's text). Whatever the VM speculates on, it never gets into undefined behaviour and raises no error but that of an access outside the memory, provided there is input wherever the program reads some; it raises none at all if the sequential machine keeps inside the memory. If the sequential machine halts after m instructions, t86-cli prints exactly what that machine printed and exits with status 0 and without a message, after at most 89 * (m + 1) ticks. If the sequential machine runs for ever, so does t86-cli, and after 89 * (m + 1) ticks it has printed what the first m instructions print.", "quantifier": "all such programs, data, inputs, sizes of the machine (for t86-cli: numbers of registers and memory sizes) and run lengths", "why_tests_cant": "All programs of the class, all wrong paths the VM may speculate on, unbounded runs.", "anchors": ["src/t86-cli/main.cpp: main", "src/t86/os.cpp: OS::Run", "src/t86/cpu.cpp: Cpu::tick", "src/t86/cpu/reservation_station.cpp", "src/t86/cpu/memory_writes.cpp", "src/t86/cpu/register_allocation_table.cpp", "src/t86/instruction.cpp"]}
{"id": "C108", "title": "The statistics count exactly the instructions the program executes", "statement": "Reset the statistics, run a program to its end tick by tick and ask for the reports. Collecting statistics changes nothing about the run. The reports are produced (no assertion in them fails); the total of ticks is the number of ticks made; the instructions counted are, in order, exactly those the sequential machine executes, and those fetched on a wrong guess and thrown away are not among them; the detailed report says of every kind of instructions how often the sequential machine executes them; and the average lifetime is the average, over these instructions, of the ticks after which the instruction is in the pipeline, plus one for its retirement.", "quantifier": "all programs, data, inputs, sizes of the machine and runs that halt", "why_tests_cant": "All programs, all sequences of speculation, flushes and stalls.", "anchors": ["src/t86/utils/stats_logger.cpp: StatsLogger", "src/t86/utils/stats_logger.h: TickStats, InstructionLifeTime", "src/t86/cpu.cpp: Cpu::tick, Cpu::unrollSpeculation", "src/t86/cpu/reservation_station.cpp", "docs/t86.md"]}
{"id": "C109", "title": "The average fetch and decode stalls are those of the instructions", "statement": "The average fetch (decode) stalls reported are the average over the executed instructions of the ticks an instruction spends in the fetch (decode) stage beyond the first. (Refuted: for every program that executes two instructions or more the figure is too large by nearly 1, as one tick is taken off the sum of all instructions instead of one off each.)", "quantifier": "all programs, data, inputs, sizes of the machine and runs that halt", "why_tests_cant": "All runs.", "anchors": ["src/t86/utils/stats_logger.cpp: StatsLogger::processAverageLifetime"]}
{"id": "C110", "title": "Debugging a well-formed program never brings the VM down", "statement": "Take a program of the class of C107 that reads no input, and debug it: set and remove breakpoints, watch cells, step, continue, read and write registers, memory and debug registers, in any order and number, with commands that name registers, cells, instructions and debug registers that exist, and write into cells no access is on its way to. As long as no access outside the memory has been reported, the VM carries out every further command and every tick: no exception leaves it, no assertion fails, nothing undefined happens; and an access outside the memory is the only error it reports. With the two entries of the reservation station t86-cli has, breakpoints never take a program out of the class (with three they can: a breakpoint in place of a jump brings the VM down). A single step is then always answered by a further stop, within 89 ticks, if no instruction both loads and stores. `t86-cli --debug` on a file with such a program waits for a debugger and serves it in this way.", "quantifier": "all programs of the class, data, sizes of the machine, sessions of such commands and moments in them", "why_tests_cant": "All programs, all places of breakpoints, all interleavings of commands and ticks, unbounded sessions.", "anchors": ["src/t86/debug.cpp: Debug::Work", "src/t86/os.cpp: OS::Run, OS::DispatchInterrupt", "src/t86/cpu.cpp: Cpu::tick, Cpu::setText, Cpu::setMemory, Cpu::setRegisterDebug"]}
{"id": "C111", "title": "The debugger's step and continue come back", "statement": "Debug a program of the class of C110 with the library of the debugger: set breakpoints and watchpoints, step, continue, in any order. When the machine is stopped and has not halted, a single step comes back with an event and has executed exactly one instruction of the program, also when it starts on an enabled breakpoint (which is in force again afterwards); the only exception is an instruction that accesses an address outside the memory. It never hangs and never ends the debugger. In the same states, and with the same exception, continuing sets the machine going again, also from a breakpoint.", "quantifier": "all programs of the class, histories of library calls and states of the machine reached by commands that name what exists", "why_tests_cant": "All programs, breakpoints, watchpoints and histories; that a call always returns cannot be observed by calls that returned.", "anchors": ["src/debugger/Native.cpp: PerformSingleStep, ContinueExecution, DoRawSingleStep, StepOverBreakpoint, WaitForDebugEvent", "src/debugger/T86Process.cpp: Singlestep, ResumeExecution, Wait"]}
{"id": "C112", "title": "Every number the VM holds or reports is a 64-bit signed integer", "statement": "Whatever the program does (sums that overflow, jumps to any address, faulting loads) and whatever the debugger sets registers and memory to, every register, float register (as its bit pattern) and memory cell holds a value from -2^63 to 2^63-1, at every tick of a run and at every stop of a debugging session, those for an error of the CPU included. So every number in an answer of the VM to a request for registers or memory is in that range, where the debugger's conversions accept it, and so are the immediates in the text it reports.", "quantifier": "all programs, data sections and inputs of C++'s types, machine sizes, sessions of commands with 64-bit values, with and without a debugger", "why_tests_cant": "All programs and histories; loads and stores in flight, renamed registers and operands waiting in the reservation station take part.", "anchors": ["src/t86/cpu.cpp: Cpu::tick, setRegister, readMemory, writeMemory", "src/t86/cpu/reservation_station.cpp: executeAndRetire, fetchAndStart, add", "src/t86/cpu/alu.cpp", "src/t86/ram.cpp: RAM::read, write", "src/t86/debug.cpp: Work"]}
{"id": "C113", "title": "A machine has the sizes it is given, and those of the configuration where none are given", "statement": "Make a machine with the number of its registers, float registers and memory cells, as t86-cli and the debugger do: it has exactly these, and the ALUs and RAM gates that the command line configures (-aluCnt, -ramGates), or their defaults where it does not mention them, and two entries of the reservation station for each ALU. Leave out the memory cells, or the float registers and the memory cells, and the machine has those configured (-ram, -floatRegisterCnt) or their defaults. Numbers may have leading zeros. A value for the ALUs that does not begin with a number makes all constructors throw.", "quantifier": "all command lines that parse (C42), all sizes", "why_tests_cant": "All command lines and sizes; the configuration is a map of texts that defaults are added to at its first use.", "anchors": ["src/t86/cpu.cpp: Cpu::Cpu, Cpu::Config::Config, registerCnt, aluCnt", "src/t86/cpu.h: Cpu::Config", "src/common/config.h: parse, get, setDefaultIfMissing"]}
{"id": "C114", "title": "A machine made without sizes is the one configured (refuted)", "statement": "A machine made without any size has the registers, float registers, ALUs, reservation station entries, memory cells and gates that the command line configures. This is false for every configuration unless numbers agree by accident: it has as many float registers as ALUs are configured and as many memory cells as reservation station entries are configured (1 and 2 by default), so that a program with three cells of data cannot be started; and no constructor uses the configured number of reservation station entries.", "quantifier": "all command lines that parse, all programs and data sections", "why_tests_cant": "The class of configurations for which it fails is a statement about all of them.", "anchors": ["src/t86/cpu.cpp: Cpu::Cpu(), Cpu::Cpu(size_t, size_t, size_t)", "src/t86/cpu.h: Cpu::Config"]}
{"id": "C115", "title": "A request for memory beyond the end is refused", "statement": "Type `memory get`, `getstr`, `set` or `setstr` with a first cell and a number of cells, numbers or characters that end beyond the debuggee's memory, the end being less than 2^64. The debugger answers with an error message; nothing else changes: no cell is written, not even those inside the memory, and the debuggee is not asked.", "quantifier": "all such lines, abbreviations, spacing, cells and numbers, all states of the debugger and the debuggee", "why_tests_cant": "All lines, states and 64-bit numbers.", "anchors": ["src/debugger/T86Process.cpp: ReadMemory, WriteMemory", "src/debugger/Native.h: SetMemory, ReadMemory", "src/dbg-cli/CLI.h: HandleMemory"]}
{"id": "C116", "title": "A request for memory beyond the end is refused, wherever it ends (refuted)", "statement": "Every such request is refused with a message. This is false of every request that ends at 2^64 or so little above it that the sum, which wraps, is not above the memory size: for example one cell at 18446744073709551615. It passes the debugger's check, and the VM ends on the message. A debugger that runs the VM itself ends with it; one attached to it loses the debuggee.", "quantifier": "all such lines, memory sizes, all states of the debugger and the stopped debuggee", "why_tests_cant": "The class of requests for which it fails is a statement about all 64-bit numbers.", "anchors": ["src/debugger/T86Process.cpp: ReadMemory, WriteMemory", "src/t86/debug.cpp: Work", "src/dbg-cli/CLI.h: HandleMemory"]}
{"id": "C117", "title": "Source text is read as the tokens it is spelled with", "statement": "Write down any sequence of names, whole numbers below 2^31, numbers with a decimal point, quoted strings (with the escapes for a line feed, a tab, a backslash and a quote) and signs, with blanks and comments anywhere between them, and so that no character that would continue a token follows it directly. The lexer that the assembler, the debugger's reader of executable files and its expressions share reads exactly these tokens, with these values, and then the end; and no text spells two sequences. So programs, files with debugging information and expressions that are spelled out as documented are read as what they say.", "quantifier": "all texts made of such tokens, blanks and comments", "why_tests_cant": "Infinitely many texts.", "anchors": ["src/common/parsing.cpp: Lexer::getNext, ParseNumber, ParseString", "src/common/parsing.h: Lexer", "src/t86-parser/parser.cpp", "src/debugger/Source/Parser.cpp", "src/debugger/Source/ExpressionParser.h"]}
{"id": "C118", "title": "help shows the page on the command that a word stands for", "statement": "At the debugger's command line, `help` (or an abbreviation) followed by a word shows the help page of the command that the same word runs when it is typed as a command, whatever the state of the session and with or without a process; alone, or with a word that stands for no command, it shows the general page, which also covers the commands without a page of their own (attach, help, print). Nothing but the output changes.", "quantifier": "all words and abbreviations, all states of a session", "why_tests_cant": "The abbreviations of help and of the commands are looked up in two lists in different orders; all words and all states count.", "anchors": ["src/dbg-cli/CLI.h: HandleHelp, HandleCommand", "src/common/helpers.h: utils::is_prefix_of"]}
