# Formal model of t86-with-debug: design

The code under /repo is modelled in Rocq (Coq 8.16.1) as total computable Gallina
functions, function by function, in `rocq/theories/*`. `*Model.v`-style files hold
definitions only, `*Proofs.v` hold lemmas, `Prop*.v` hold the final theorems
(one per English property, with a concrete instance of its hypotheses and
`Print Assumptions`).

## Conventions

* 64-bit values are `Z`. `s64 z` is the two's-complement reading of `z` modulo 2^64,
  `u64 z` the unsigned one. `nat` is used for lengths, counters and fuel only.
* Exceptions, failed asserts (asserts are active: the project's Release flags do not define
  NDEBUG) and undefined behaviour are *distinct outcomes* of the model:
  `Ok s | Throw e | UB why`. Nothing is silently totalised.
* Signed overflow in the ALU is UB in C++; x86-64 compilers wrap. Both readings are modelled by a
  mode parameter (`strict`/`wrap`), theorems hold for both unless they say otherwise.
* Floating-point operations are a parameter of the pipeline model (any functions on bit patterns);
  the refinement theorems hold for every instantiation.
* Memory-safety of `unordered_map<Id, MemoryWrite&>` (references into a vector that is later
  modified) is modelled by an explicit validity bit: using an invalidated reference is UB.

## Layers

1. `Word`/`Alu`: 64-bit arithmetic and `cpu/alu.cpp`.
2. `Isa` (syntax of registers, operands, instructions) and `IsaSpec`: an independent sequential
   semantics written from docs/t86-isa.md, one instruction per step.
3. `Ram`, `Writes`, `Rat`, `Station`, `Cpu`: the out-of-order VM (`ram.cpp`,
   `memory_writes_manager*`, `register_allocation_table.cpp`, `reservation_station.cpp`, `cpu.cpp`,
   `instruction.cpp`), tick by tick.
4. Refinement proof of 3 by 2: invariant over all reachable VM states, simulation on retirement.
5. `Os`/`DebugServer`: `os.cpp`, `debug.cpp`.
6. `Text utilities`, `Lexer`, `Assembler`, `Printer`: `common/helpers.h`, `common/parsing.cpp`,
   `t86-parser/parser.cpp`, `toString` functions.
7. `Tcp`, `Queue`, `Config`: `common/TCP.h`, `threads_messenger.h`, `config.cpp`.
8. `Arch`, `T86Process`, `Native`: the debugger library.
9. `Source`: line mapping, scopes, location expressions, user expressions, types.
10. `Builder`: `program/programbuilder.h`.

## Plan per property

| id | what is modelled | how it will be proved |
|----|------------------|-----------------------|
| C01 | layers 2-4 | invariant + simulation by induction on ticks; ghost retired count |
| C02 | layers 2-4 | corollary of C01 and determinism of the sequential machine |
| C03 | layer 3, 5 | invariant of tick: interrupt or halt implies flushed pipeline |
| C04 | layers 3, 5 | trap-flag invariant: each tick retires at most one instruction and then stops |
| C05 | layers 2-5 | C01 + C04; counterexample for programs writing IP with MOV |
| C06 | layers 2-4 | part of the C01 simulation; saved exception only rethrown at retirement |
| C07 | layer 3 | subscription-count invariant + counting argument |
| C08 | layer 3 | invariant by induction on ticks |
| C09 | layer 3 | invariant by induction on ticks |
| C10 | layer 3, `LiveSpec.v` | ranking argument on the oldest instruction, bound of 89 ticks per instruction (`PipeLive.v`, `PipeSoon.v`, `PropLive.v`) |
| C11 | layer 1 | arithmetic over Z, all operands |
| C12 | layer 1, 2 | arithmetic over Z, case split over the sixteen jumps |
| C13 | layer 1 | bit reasoning |
| C14 | layer 2, 3 | operand supply evaluates to the documented effective address |
| C15 | layer 2 | sequential semantics, induction on nesting |
| C16 | layer 3 | store-queue invariant used by C01, stated on its own |
| C17 | layer 3 | loop over debug registers |
| C18 | layer 5 | get/set laws on the stopped VM |
| C19 | layers 3-5 | C01 from an arbitrary clean state; counterexample for POKEDATA while RAM latency state lingers |
| C20 | layer 5 | case analysis over commands |
| C21 | layer 5 | refutation with a witness, and the positive part |
| C22 | layer 6 | parse (print i) = i by cases and lexer lemmas |
| C23 | layer 6 | completeness of the parser for the documented grammar (AsmSpec.v), case by case over the parser's functions |
| C24 | layer 6 | induction on the text |
| C25 | layer 7 | induction on segmentations; refutation for split headers |
| C26 | layer 7 | transition system, invariant over all interleavings |
| C27, C43 | layer 6 | induction on strings |
| C28 | layer 6 | digit arithmetic |
| C29 - C32, C41 | layer 8 | invariants over operation sequences; refutations where the code is wrong |
| C33 | layers 5, 6, 8 | composition of encoder/decoder lemmas |
| C34 - C37 | layer 9 | induction on tables / trees / programs; refutations where the code is wrong |
| C38 | layer 10 | induction on builder operations |
| C39, C40 | layer 3 | refutations with witnesses executed in the model |
| C42 | layer 7 | induction on the argument vector |
| C44 - C46 | layers 1-4 | refutations split off from C05, C11 and C14, so that those are true as stated |
| C47 | layer 3 | refutation: the validity bit of a reference into the write list |
| C48 | layer 7 | refutations split off from C25 |
| C49, C51 | layer 6 | refutations with witnesses |
| C50 | layer 6 | the remaining text shrinks with every token |
| C52 | layer 6 | soundness for texts with minus only before integers and names only of registers; refutations for the rest (`MOV R0, -R1`, `[R2 - R1]`, `RAX`) |
| C53, C54 | layers 5, 8 | refutations with witnesses, split off from C20 and C33 |
| C58 | layer 8 | refutation split off from C31 |
| C59 | layer 8 | refutations split off from C30: BKPT instructions of the program's own |
| C60 | layer 8 | refutation split off from C30: breakpoints outside the program |
| C61 | layer 8 | refutation split off from C31, and the full history with the defect's rule |
| C62 - C64 | layer 8 | refutations split off from C41, universal where the defect is unconditional |
| C65 | Builder | refutation over all builder states, with the part that holds |
| C66 - C68 | layer 9 | refutations split off from C35 - C37, universal |
| C69 | layer 3 | refutation split off from C10: states that tick to themselves, for every float unit |
| C70 | layer 4 | induction over a session; the error state is left only towards failure, and no tick follows it |
| C71 - C73 | layer 9 | evaluator against an inductive value relation (ValSpec.v) over registers and cells: soundness, completeness, frame |
| C74 - C76 | layer 9 | refutations split off from C71 - C73, universal |
| C77, C78 | layer 9 | both parsers against an inductive grammar of the whole file (InfoSpec.v), by induction on it; a measure on the text left for the end of every loop |
| C79, C80 | layer 9 | refutations split off from C77 |
| C81, C82 | layer 8 (`Src.v` steps over `Native.v`) | `to_line` (PropLineStep.v) over `into`/`over` of LibSpec; induction on the loops, then over histories as for C30 |
| C83 | layer 8 | refutations split off from C81, C82 |
| C84 | layer 10: the command line (`Cli.v`: dbg-cli/CLI.h over Native, Src, Expr) | `typed`, `stands_for`, `reads`, `order_spec` (PropCli.v) over `deed_spec`; induction over the lines |
| C85 | layer 10 | `still` (CliFacts.v): closed under every display function, for all states |
| C86, C87 | layer 10 | `run_line`, `executable` (PropRun.v); the VM told to end does so, the new one is at its start; induction over the breakpoints and watchpoints set again, then C84 |
| C88 | layer 10 | `stores_line`, `shows_line` (PropStore.v): what a line asks to be written or shown, in terms of cells and registers; C33 for the library calls, induction over the characters of a string |
| C89, C90 | layer 10 | refuted for every state: invariant of the strings that can be read; the lines that end the debugger (`fatal`), and the one that hangs it after any session of C84 |
| C91, C92 | layer 10 | what is printed, as a function of the view (C84) the session has led to: specification of listings, marks, headings and source lines in `PropShow.v`; each display equals it by induction on its lines |
| C93 | layer 10 | the reading loop of the CLI equals the session of C84 (no line depends on the lines that are still to be read: `blind`), then `ExitProcess` on every kind of stop |
| C94 | layer 10 | the tables stay in increasing order under every line (`Orderly.v`: closure over the library and the front end); specification of the entries in `PropList.v` |
| C95, C96 | layer 10 | refutations split off from C94 and C91, for every session |
| C97 | layer 10 | `Change.v`: each change of a register, of cells or of instructions takes the view (C84) to the changed view; `PropChange.v`: induction over the lines, with the program as part of the state |
| C98 | layer 10 | `PropAttach.v`: what `attach` leaves is the state C84 starts from; C84 no longer asks for a VM in a thread of the debugger, only that the VM is there after each line |
| C99 | layer 10 | refuted for all VMs with more registers than the debugger counts: `SetRegisters` refuses the name of a register it writes back |
| C100, C101 | layer 10 | `PropPrint.v`: relations `type_shown`, `shown_as`, `string_at` say how types and values are displayed, independently of the fuel of the printing functions; both directions by mutual induction (what is displayed is so related, what is so related is displayed with enough fuel); the variables of `frame` are those `declares` (C35) declares, in the order of names |
| C102, C103 | layer 10 | refutations split off from C101 and C100, for every unsigned variable and for every array of chars without a zero |
| C104 | layer 10 | `T86Main.v`: main of t86-cli after the arguments are parsed; `AsmTyped.v`: what the assembler accepts meets the typing hypotheses of C01; `PipeOut.v`: what an interrupted tick has printed; `PropMain.v`: boot succeeds exactly if the data fit, then C01 and C10 |
| C105, C106 | layer 10 | refutations split off from C104, for all files of the kind |
| C107 | layer 11 | `SafeSpec.v`: the class of programs, decidable on the text; `PipeSafe*.v`: an invariant under which no operation of a tick can fail (names in the tables exist and are counted, every unfinished write is registered once and no two have one address, every operand that is waited for is delivered), preserved by execute, retire, poll, decode and by squashing; `SafeWindow.v`: the text condition implies that the addresses of the stores in flight differ in every state; `IsaDet.v`: the sequential machine is deterministic; `PropSafe.v`: with C01, C06, C10 and C104 the statement about t86-cli |
| C108, C109 | layer 12 | `Stats.v`: the logger (`stats_logger.cpp`) and the processor of `Cpu.v` with the calls that log and the identification numbers of the instructions; `StatsSpec.v`: the trace of the sequential machine, where an instruction is after a tick. Invariant (`StatsProof.v`): the numbers in flight are those registered and not yet retired, and the history of each (the stages logged for it, tick by tick) is nothing, then fetch, decode, ... in order of the stages; a retired one has a finished history. `StatsLife.v`: on finished histories the scan of the report terminates without an assertion and counts the ticks per stage; `StatsRun.v`: whole runs, the retired instructions are those of the in-order machine, the logger never gets in the way. |
| C110 | layer 11 | `SafeDbgSpec.v`: well-formed programs, commands that name what exists; the invariant of C107 carried through debugging sessions (`SafeDbg.v`): commands find the machine at rest and leave the rest of the invariant alone, ticks preserve it; a window of two instructions with a breakpoint in it holds one store at most |
| C111 | layer 11 | `StepTotal.v`: the messages of a single step are answered (C33), the wait ends (C110_step_answered), each reason for stopping becomes an event; the effect is that of C30/C31. `StepFault.v`: a step that ends in an error of the CPU is that of an instruction that accesses a missing cell |
| C112 | layer 6 | `PipeFits.v`: invariant of the machine (registers, memory, loads and stores in flight, fetched operands, fetched and decoded instructions), kept by every part of a tick, by exceptions and by every command |
| C113, C114 | layer 8 | `Machine.v`: Cpu::Config and the constructors of Cpu as functions of the parsed command line; `PropMachine.v` relates them to the arguments through C42 and C28 |
| C115, C116 | layer 7 | `PropBounds.v`: the handler of `memory` asks the library with the numbers typed; the check of the library refuses without a message to the VM, and where the sum wraps the VM cannot decode the message |
| C117 | layer 6 | `PropSpell.v`: a specification of how tokens are spelled, independent of `Lexer.v`, and the lexer meets it; C23 from the text on; `PropSpellUse.v`: the same for C77 and C37 |
| C118 | layer 10 | `PropHelp.v`: the page on each command is listed in a relation of its own; every abbreviation is a beginning of a name, so the lookup is settled by cases |
| C55 - C57 | layer 8 | the invariant of C29 with writes; refutations split off from C29 |

## What is modelled where

| file of the model | code |
|---|---|
| Base, Alu | src/t86/cpu/alu.cpp, alu.h |
| Isa, Show | src/t86/instruction.{h,cpp}, operand.{h,cpp}, cpu/register.h (toString) |
| State, Ram, Writes, Rat, Exec, Cpu | src/t86/cpu.{h,cpp}, ram.{h,cpp}, cpu/memory_writes*.cpp, cpu/register_allocation_table.cpp, cpu/reservation_station.cpp, instruction.cpp |
| Os | src/t86/os.cpp, debug.cpp (commands as data) |
| DbgText, Client, StdMap | src/t86/debug.cpp (messages as text), src/debugger/T86Process.{h,cpp}, std::map |
| Native | src/debugger/Native.{h,cpp}, Arch.h, Breakpoint.h, Watchpoint.h, DebugEvent.h |
| Config, Machine | src/common/config.h, Cpu::Config and the constructors in src/t86/cpu.{h,cpp} |
| Text | src/common/helpers.h |
| Lexer, Asm | src/common/parsing.{h,cpp}, src/t86-parser/parser.{h,cpp} |
| Builder | src/t86/program/programbuilder.h, label.h, validate and setDestination of instruction.cpp |
| Src, Info | src/debugger/Source/{Die,LocExpr,Type,LineMapping,SourceFile,ExpressionInterpreter,Source,Parser}.{h,cpp} |
| Expr, Eval | src/debugger/Source/{Expression.h,ExpressionParser,ExpressionEvaluator}.{h,cpp} |
| Cli | src/dbg-cli/CLI.h, main.cpp (after argument parsing) |
| T86Main | src/t86-cli/main.cpp (after argument parsing) |
| Stats | src/t86/utils/stats_logger.{h,cpp}, the logging calls in cpu.cpp and cpu/reservation_station.cpp |
| Tcp, Queue, Config | src/common/TCP.h, src/threads_messenger.h, src/common/config.{h,cpp} |

Specifications written independently of the code: AluSpec, IsaSpec (from docs/t86-isa.md), DbgSpec
(from docs/debugging.md), AsmSpec (the documented grammar), LibSpec (the calls of the debugger library), ExprSpec
(the grammar of debugger expressions), ValSpec (their values), InfoSpec (the executable file, from docs/source-info.md), and the first section of each `Prop*.v`.

Both transports are modelled (`u_local` in Client.v): the VM as a thread of the debugger (`run`), where
waiting for a VM that has ended blocks for ever and an exception in the VM ends the debugger, and the
TCP connection (`attach`), where either loses the connection.

Not modelled: the logging macros, the part of the statistics about which registers and cells are waited for, line editing (linenoise) and colours beyond
the colour of a printed piece, argument parsing of dbg-cli's and t86-cli's `main`, sockets below send/recv,
C++ allocation failure, the standard library (modelled by its specification), and the exact values
of floating-point operations and of the decimal texts of floats (parameters).

## Faults of the code found by the proofs

Each is a property that is false of the code, stated and proved as a refutation
(`..._refuted`), with the class of cases for which it fails. What is true instead is
proved beside it.

| Where | What happens | Property |
|---|---|---|
| CPU | a division by zero or a missing register on a mispredicted path ends the VM | C40 |
| CPU | `MOV [R0],[R1]`, `MOV [2],[2]` and `PUSH [2]` wait for their own store for ever | C69 |
| CPU | instructions that assign IP behave differently when stepped | C44 |
| CPU | two stores in a row to one cell use a dangling reference | C47 |
| CPU | shift counts of 64 and more, `[R+R]`, PC as a destination are undefined or accepted wrongly | C45, C46, C65 |
| CPU | `Cpu()` passes its sizes in the wrong order | C114 |
| VM stops | the registers shown at CPU_ERROR contain results of later instructions | C39 |
| VM stops | POKEDATA is lost while a store to the cell is on its way; stepping mode stays on | C19, C21, C64 |
| t86-cli | the average stalls are too large; the exit status never shows an error; some files end it by an exception | C105, C106, C109 |
| Protocol | malformed messages end the VM; a length split by the network gives another message | C53, C48 |
| Library | the end of a range of memory wraps; a register name may contain its own value | C116, C54 |
| Library | a watchpoint that is removed stays enabled, one hit by a step costs a stop later | C58, C61 |
| Library | breakpoints are passed by stepping over and out; a breakpoint behind the end ends the VM | C60, C62, C63, C83 |
| Library | writing over a disabled breakpoint puts BKPT into the program | C55, C57 |
| Assembler | minus in front of a register is ignored; exceptions and asserts are reachable | C49, C51, C52 |
| Debug info | scopes hide inner variables; incomplete types are undefined behaviour | C66, C67, C79, C80 |
| Expressions | overflow, shifts, negative indices and `unsigned` end the debugger; `<=` is ignored | C68, C74 - C76 |
| Command line | mistyped numbers end the debugger; strings lose blanks and backslashes | C89, C90 |
| Command line | breakpoints are listed one line too low, `disassemble range` misses the last instruction, a VM with more than ten registers cannot be attached to usefully | C95, C96, C99 |
| Command line | `unsigned` variables and char arrays without a zero cannot be shown | C102, C103 |
| `CLI.h` `HandleHelp` | `a` runs `attach`, but `help a` shows the help on `assemble`: attach is missing from the list of topics | C118 |

## Known gap of the specifications

The listing of a function (C91) and the heading of `frame` (C101) are stated with the
model's own lookup of a function by its name (`Src.function_addr`, Source.cpp:130-155). An
edit by which anything of that name counts as the function is not noticed by a theorem. It is
in `seeded/LOG.jsonl` with no failing theorem. The lookup is trusted as read.

In `seeded/LOG.jsonl`, `theorems_failed` begins with the lemma at which the build stops; the
theorems of the claim in files that then do not compile follow.

## Trusted base

* Coq 8.16.1's kernel, including its virtual machine (`vm_compute`).
* Print Assumptions says "Closed under the global context" for every theorem of MANIFEST.json; no
  axioms are used. The libraries loaded through ssreflect contain the standard library's
  `Coq.ssr.ssrunder.Under_rel.*` module parameters; no theorem depends on them.
* The reading of the C++ sources and of docs/ into Gallina. Every definition cites the lines it models.
