{"claims": [
{"property": "C01", "status": "proved", "theorems": ["C01_ticks", "C01_run", "C01_session"], "note": "for programs in which only jumps write IP (see C44)"},
{"property": "C02", "status": "proved", "theorems": ["C02_config_independent"], "note": ""},
{"property": "C03", "status": "proved", "theorems": ["C03_clean_stop"], "note": ""},
{"property": "C04", "status": "proved", "theorems": ["C04_single_step"], "note": ""},
{"property": "C05", "status": "proved", "theorems": ["C05_stepping_is_running", "C05_same_end"], "note": "for programs in which only jumps write IP (see C44)"},
{"property": "C07", "status": "proved", "theorems": ["C07_free_register"], "note": ""},
{"property": "C08", "status": "proved", "theorems": ["C08_alus_conserved"], "note": ""},
{"property": "C09", "status": "proved", "theorems": ["C09_predictions"], "note": ""},
{"property": "C11", "status": "proved", "theorems": ["C11_binary_exact", "C11_unary_exact", "C11_defined", "C11_strict_refines_wrap"], "note": ""},
{"property": "C12", "status": "proved", "theorems": ["C12_cmp_jcc", "C12_cmp_jcc_word"], "note": ""},
{"property": "C13", "status": "proved", "theorems": ["C13_flags_roundtrip", "C13_flags_low_bits", "C13_flags_word_range", "C13_flags_bits"], "note": ""},
{"property": "C17", "status": "proved", "theorems": ["C17_stop", "C17_watchpoint"], "note": "for programs in which only jumps write IP and sessions that change memory only where no access is under way"},
{"property": "C18", "status": "proved", "theorems": ["C18_poke_peek"], "note": "at stops other than CPU_ERROR"},
{"property": "C19", "status": "partial", "theorems": ["C19_pokes_take_effect_partial", "C19_stale_poke_refuted"], "note": "refuted for POKEDATA while a store to the cell is on its way to the RAM; proved for all other pokes"},
{"property": "C21", "status": "partial", "theorems": ["C21_continue_runs_partial", "C21_stepping_leaks_refuted"], "note": "refuted: a step that ends in a breakpoint or watchpoint leaves stepping mode on; proved for steps reported as SINGLESTEP"},
{"property": "C44", "status": "partial", "theorems": ["C44_mov_ip_refuted"], "note": "refuted: the property is false of the code, with a program run both ways in the model as counterexample"},
{"property": "C14", "status": "proved", "theorems": ["C14_load", "C14_store"], "note": "for the instruction executed by a SINGLESTEP from any reachable stop; by C05 running is stepping"},
{"property": "C15", "status": "proved", "theorems": ["C15_push", "C15_push_pop", "C15_call_ret", "C15_nested"], "note": "between the two instructions any stack-disciplined execution of any nesting depth"},
{"property": "C16", "status": "proved", "theorems": ["C16_latest_store"], "note": ""},
{"property": "C45", "status": "partial", "theorems": ["C11_defined", "C11_large_shift_refuted", "C11_shift_by_zero_refuted", "C11_imul_trap_refuted"], "note": "refuted: shift counts of 64 and more, shifts by zero and one IMUL product; C11_defined lists the trapping cases exactly"},
{"property": "C46", "status": "partial", "theorems": ["C14_lea_partial", "C14_lea_register_sum_refuted"], "note": "refuted for [R+R], which is undefined behaviour; proved for the other forms"},
{"property": "C06", "status": "proved", "theorems": ["C06_wrong_path_invisible", "C06_fault_is_sequential", "C06_session_fault_is_sequential"], "note": "RAM and output during the run: C01_ticks; crashes of the VM by wrong-path instructions are C40"},
{"property": "C39", "status": "partial", "theorems": ["C39_error_registers_refuted"], "note": "refuted: registers shown at CPU_ERROR include results of younger instructions"},
{"property": "C40", "status": "partial", "theorems": ["C40_division_refuted", "C40_register_refuted"], "note": "refuted: a division by zero or a missing register on a mispredicted path ends the VM"},
{"property": "C47", "status": "partial", "theorems": ["C47_two_stores_refuted"], "note": "refuted: MOV [5],1; MOV [5],2 uses a dangling reference"},
{"property": "C27", "status": "proved", "theorems": ["C27_split", "C27_split_total", "C27_join_split", "C27_split_join"], "note": ""},
{"property": "C28", "status": "proved", "theorems": ["C28_read_unsigned", "C28_read_signed", "C28_no_number", "C28_print", "C28_signed_roundtrip", "C28_unsigned_roundtrip"], "note": ""},
{"property": "C43", "status": "proved", "theorems": ["C43_prefix", "C43_squash", "C43_squash_total", "C43_squash_idempotent"], "note": ""},
{"property": "C25", "status": "proved", "theorems": ["C25_send", "C25_receive", "C25_framing"], "note": "given that the eight length bytes of a message arrive together and no send fails (see C48)"},
{"property": "C26", "status": "proved", "theorems": ["C26_fifo", "C26_exclusive", "C26_no_lost_wakeup", "C26_finite", "C26_delivery"], "note": "one sending and one receiving thread per direction"},
{"property": "C42", "status": "proved", "theorems": ["C42_values", "C42_twice", "C42_default"], "note": ""},
{"property": "C48", "status": "partial", "theorems": ["C48_split_length_refuted", "C48_failed_send_refuted"], "note": "refuted: a length delivered in two parts yields another message; a failed send drops a message or repeats a byte"},
{"property": "C22", "status": "proved", "theorems": ["C22_printed_form_reads_back", "C22_listing_reads_back"], "note": "negative absolute addresses are C49"},
{"property": "C23", "status": "proved", "theorems": ["C23_source_is_assembled", "C23_source_program_is_assembled", "C23_written_is_assembled", "C23_written_program_is_assembled"], "note": "for the accepted forms of AsmSpec.v; the converse is C52"},
{"property": "C24", "status": "proved", "theorems": ["C24_layout_keeps_tokens", "C24_layout_keeps_program", "C24_stream"], "note": ""},
{"property": "C49", "status": "partial", "theorems": ["C49_negative_address_refuted"], "note": "refuted: ADD R0, [-5] prints as an address the assembler rejects with out_of_range"},
{"property": "C50", "status": "proved", "theorems": ["C50_assembler_terminates", "C50_assembled_is_valid"], "note": ""},
{"property": "C51", "status": "partial", "theorems": ["C51_rejected_with_message_refuted"], "note": "refuted: out_of_range, a failing assert and undefined behaviour are reachable"},
{"property": "C52", "status": "partial", "theorems": ["C52_assembled_is_written_partial", "C52_negated_register_refuted", "C52_register_difference_refuted", "C52_unknown_register_refuted"], "note": "refuted: MOV R0, -R1; [R2 - R1]; RAX. Proved when each minus stands before an integer and each name is a register"},
{"property": "C20", "status": "proved", "theorems": ["C20_one_reply", "C20_questions_change_nothing", "C20_questions_in_a_row", "C20_unknown_command", "C20_well_formed_answered", "C20_well_formed_conversation"], "note": "messages that are not well-formed are C53"},
{"property": "C33", "status": "proved", "theorems": ["C33_read_memory", "C33_read_text", "C33_reason", "C33_text_size", "C33_fetch_registers", "C33_fetch_float_registers", "C33_fetch_debug_registers", "C33_set_registers", "C33_set_register", "C33_set_float_registers", "C33_set_debug_registers", "C33_write_memory", "C33_write_text", "C33_bad_text", "C33_unknown_register", "C33_stopped_readable", "C33_registers_round_trip", "C33_memory_round_trip", "C33_text_round_trip"], "note": "for a debugger whose sizes are not larger than the machine's (else C53) and register names (else C54); floats: as far as their decimal text reads back"},
{"property": "C53", "status": "partial", "theorems": ["C53_message_ends_vm_refuted", "C53_library_ends_vm_refuted"], "note": "refuted: malformed or out-of-range messages end the VM by an uncaught exception or undefined behaviour"},
{"property": "C54", "status": "partial", "theorems": ["C54_register_name_refuted"], "note": "refuted: SetRegisters({{'R1 5', 7}}) reports success and writes 5 to R1"},
{"property": "C29", "status": "proved", "theorems": ["C29_original_kept", "C29_restorable"], "note": "for instructions whose printed form reads back (C29_restorable: all but those of C56)"},
{"property": "C55", "status": "partial", "theorems": ["C55_written_kept_partial", "C55_disabled_breakpoint_refuted", "C55_nonsense_refuted"], "note": "refuted: a write over a disabled breakpoint puts BKPT into the program; nonsense is accepted over an enabled one. Proved otherwise"},
{"property": "C56", "status": "partial", "theorems": ["C56_float_constant_refuted", "C56_negative_address_refuted"], "note": "refuted: float constants without a six-digit decimal form, negative absolute addresses"},
{"property": "C57", "status": "partial", "theorems": ["C57_existing_refuted", "C57_disabled_refuted", "C57_watchpoints_refuted"], "note": "refuted: existing breakpoints make it throw, disabled ones hide the program text"},
{"property": "C31", "status": "proved", "theorems": ["C31_slots", "C31_nothing_else", "C31_hit_reported"], "note": "removal on the side of the VM is C58"},
{"property": "C32", "status": "proved", "theorems": ["C32_activate", "C32_deactivate", "C32_responsible"], "note": ""},
{"property": "C58", "status": "partial", "theorems": ["C58_still_enabled_refuted", "C58_removed_watchpoint_refuted"], "note": "refuted: the debug register stays enabled; the next write stops the VM and the debugger fails an assertion"},
{"property": "C30", "status": "proved", "theorems": ["C30_history", "C30_undebugged"], "note": "for programs without BKPT of their own (C59), breakpoints inside the program (C60) and instructions that can be put back (C56)"},
{"property": "C59", "status": "partial", "theorems": ["C59_own_bkpt_refuted", "C59_forever_refuted", "C59_breakpoint_on_it_refuted"], "note": "refuted: the program never gets past a BKPT of its own"},
{"property": "C60", "status": "partial", "theorems": ["C60_outside_refuted"], "note": "refuted: the VM ends by an uncaught exception, for every address behind the end"},
{"property": "C61", "status": "partial", "theorems": ["C31_history_partial", "C61_left_refuted"], "note": "refuted: after a watchpoint hit by a single step, continuing executes one instruction. Proved: in every other case the history is as specified"},
{"property": "C41", "status": "proved", "theorems": ["C41_step_over", "C41_step_out", "C41_out_ends"], "note": "for programs whose instructions behind calls can be restored (C29); the wider claims are C62-C64"},
{"property": "C62", "status": "partial", "theorems": ["C62_entry_refuted", "C62_deeper_refuted", "C62_out_refuted"], "note": "refuted: the breakpoint on the first instruction of the callee, on the instruction behind the call at another depth, and on a CALL met while stepping out is passed silently"},
{"property": "C63", "status": "partial", "theorems": ["C63_disabled_refuted", "C63_last_refuted", "C63_watch_refuted"], "note": "refuted: disabled breakpoint behind the call, call at the last address, watchpoint hit by the call"},
{"property": "C64", "status": "partial", "theorems": ["C64_fault_refuted", "C64_out_stepping_refuted", "C61_left_refuted"], "note": "refuted: a fault in the callee is reported as a completed step; stepping out stopped by a breakpoint leaves stepping mode on"},
{"property": "C38", "status": "proved", "theorems": ["C38_labels", "C38_current", "C38_data", "C38_program", "C38_jump"], "note": "operations that fail an assert end the process and have no successor state; DBG instructions are items without effect"},
{"property": "C65", "status": "partial", "theorems": ["C65_refused_partial", "C65_accepted_refuted"], "note": "refuted: three-operand arithmetic, GETCHAR and NRW with destination PC are accepted; proved for two-operand arithmetic, MOV, LEA, POP"},
{"property": "C34", "status": "proved", "theorems": ["C34_mapped", "C34_addr_to_line", "C34_line_back"], "note": "C34_mapped: every line table read from a file is a map with ordered keys"},
{"property": "C35", "status": "proved", "theorems": ["C35_sound", "C35_complete", "C35_innermost"], "note": "other orders of declarations are C66"},
{"property": "C36", "status": "proved", "theorems": ["C36_locates"], "note": "sums that leave 64 bits are undefined behaviour and have no result; DEREFERENCE is C67"},
{"property": "C37", "status": "proved", "theorems": ["C37_whole", "C37_unambiguous", "C37_prefix", "C37_ends"], "note": "what follows an expression is C68"},
{"property": "C66", "status": "partial", "theorems": ["C66_last_child_refuted", "C66_order_refuted"], "note": "refuted: a variable listed last in an active scope hides those of inner scopes, in every tree"},
{"property": "C67", "status": "partial", "theorems": ["C67_register_partial", "C67_twice_refuted", "C67_keeps_refuted", "C67_underflow_refuted"], "note": "refuted: a number is dereferenced twice, the operand stays on the stack, and an empty stack is undefined behaviour. Proved: a register dereferenced last"},
{"property": "C68", "status": "partial", "theorems": ["C68_rest_ignored_refuted", "C68_second_operand_refuted", "C68_less_or_equal_refuted"], "note": "refuted, for every accepted expression: anything behind it is ignored, <= and >= included"},
{"property": "C69", "status": "partial", "theorems": ["C69_hang_refuted"], "note": "refuted, whatever the floating-point unit: MOV [R0],[R1], MOV [2],[2] and PUSH [2] wait for their own store for ever; a load with 0 RAM gates and EXT with 0 ALUs never start"},
{"property": "C10", "status": "proved", "theorems": ["C10_progress", "C10_counts", "C10_reaches", "C10_step_ends"], "note": "explicit bound: 89 ticks per instruction; free runs and any debugging session; instructions that both load and store and configurations without ALU or gate are C69"},
{"property": "C70", "status": "proved", "theorems": ["C70_exit", "C70_alone"], "note": "the value returned by OS::Run; t86-cli main.cpp:84 drops it, so the exit status of the process does not show it"},
{"property": "C71", "status": "proved", "theorems": ["C71_expression", "C71_text"], "note": "the exception is stated in the theorem: the link to the debuggee is gone (C75_last_address_refuted)"},
{"property": "C72", "status": "proved", "theorems": ["C72_shown_is_value", "C72_value_is_shown", "C72_one_value", "C72_text", "C72_element", "C72_array", "C72_member"], "note": "the arithmetic of doubles is a parameter; && and ||, pointer difference and char difference as the code has them (C76); DEREFERENCE in locations is C67"},
{"property": "C73", "status": "proved", "theorems": ["C73_assigns", "C73_text", "C73_reads_back"], "note": "the debugger must know at least the registers of the machine; doubles are C74; reading back: scalar variables in memory"},
{"property": "C74", "status": "partial", "theorems": ["C74_double_refuted", "C74_no_integer_refuted"], "note": "refuted, for every double: it is converted to an integer, which is stored; undefined behaviour for negative and large ones"},
{"property": "C75", "status": "partial", "theorems": ["C75_first_token_refuted", "C75_overflow_refuted", "C75_shift_refuted", "C75_index_refuted", "C75_unsigned_refuted", "C75_last_address_refuted"], "note": "refuted: a text that begins with no token, overflow, shift counts, negative index, unsigned objects end the debugger; a pointer with all bits set loses the debuggee. All other outcomes are covered by C71, C72"},
{"property": "C76", "status": "partial", "theorems": ["C76_pointer_difference_refuted", "C76_both_sides_refuted", "C76_char_difference_refuted"], "note": "refuted, for all operands; the remaining operators are those of C: C72"},
{"property": "C77", "status": "proved", "theorems": ["C77_debug_info", "C77_program", "C77_source"], "note": "the grammar (InfoSpec.v) excludes files outside the documentation; for the VM the instructions must be ones the assembler accepts (C22) and absolute addresses not negative; for the types every structured type must be complete (C80)"},
{"property": "C78", "status": "proved", "theorems": ["C78_ends", "C78_terminates_debugger"], "note": ""},
{"property": "C79", "status": "partial", "theorems": ["C79_key_refuted", "C79_backtick_refuted", "C79_refuted"], "note": "refuted: a number in place of an attribute name repeats the last name, the closing backtick may be any token; C79_refuted shows such a file is not one by the grammar"},
{"property": "C80", "status": "partial", "theorems": ["C80_complete_partial", "C80_refuted"], "note": "refuted: a structured type with an ID but without name, size or members is undefined behaviour. Proved: nothing else that is missing is"},
{"property": "C81", "status": "proved", "theorems": ["C81_history", "C81_step_into", "C81_into_ends"], "note": "the theorems of the memory and the program: as for C30 (no BKPT in the program, instructions under breakpoints restorable); watchpoints only without steps over"},
{"property": "C82", "status": "proved", "theorems": ["C81_history", "C82_step_over", "C82_over_ends"], "note": "without watchpoints (C63_watch_refuted); calls must have restorable instructions behind them"},
{"property": "C83", "status": "partial", "theorems": ["C83_call_refuted", "C83_refuted", "C83_left_refuted"], "note": "refuted: a breakpoint on a call within the line is passed by stepping over; a step by lines stopped by a breakpoint leaves the machine in stepping mode. Everything else that is met is reported: C81_into_ends"},
{"property": "C84", "status": "proved", "theorems": ["C84_session", "C84_ended"], "note": "lines of the kinds of `reads` (PropCli.v), VM in a thread of the debugger (`run`) or attached and still there after each line; programs and breakpoints as for C30, C81; lines that fail midway (a move that ends the VM by an error) are outside `went`"},
{"property": "C85", "status": "proved", "theorems": ["C85_display"], "note": "if the VM is in another process the connection may be lost while asking (C53)"},
{"property": "C86", "status": "proved", "theorems": ["C86_run", "C86_session"], "note": "the file must be readable (C22, C77) and the machine bootable; C86_session under the hypotheses of C84"},
{"property": "C87", "status": "proved", "theorems": ["C87_rerun"], "note": "sessions as in C84; enabled breakpoints must be usable in the program that is started; disabled breakpoints are C57"},
{"property": "C88", "status": "proved", "theorems": ["C88_stores", "C88_shown"], "note": "a connected debuggee that is stopped and a debugger that knows its registers (C33); cells within the memory size the debugger assumes"},
{"property": "C89", "status": "partial", "theorems": ["C89_string_refuted"], "note": "refuted: whatever is typed, what is stored has no backslash and no two blanks in a row (C88 gives the strings that are stored as typed)"},
{"property": "C90", "status": "partial", "theorems": ["C90_mistakes_refuted", "C90_attach_refuted"], "note": "refuted: an address or port that is no number, a missing port, a function without a line and a program that does not assemble end the debugger; attach without a port hangs it"},
{"property": "C91", "status": "proved", "theorems": ["C91_displayed"], "note": "after the sessions of C84; the instruction pointer can be read; gap: the address range of a function is looked up by the model's own function_addr in the statement, not by a separate specification (a seeded bug there survived, see seeded/LOG.jsonl)"},
{"property": "C92", "status": "proved", "theorems": ["C92_moved"], "note": "after the sessions of C84; the move is not refused and no CPU error happens"},
{"property": "C93", "status": "proved", "theorems": ["C93_run"], "note": "the first line starts the program (run); lines as in C84; an attached VM that is gone at the end of the input is C90's kind of failure"},
{"property": "C94", "status": "proved", "theorems": ["C94_lists", "neat_line"], "note": "after the sessions of C84; neat_line holds for all lines and states"},
{"property": "C95", "status": "partial", "theorems": ["C95_line_refuted"], "note": "refuted: in every session the list shows one less"},
{"property": "C96", "status": "partial", "theorems": ["C96_range_refuted", "C96_unset_refuted"], "note": "refuted in every session: the last instruction of the range is missing; unset is not a command, the usage is shown and nothing is removed. What the commands do is C91, C84"},
{"property": "C97", "status": "proved", "theorems": ["C97_session", "C97_assembled"], "note": "started and attached programs; changes are not refused; memory is written where no access is under way (C19), instructions where no breakpoint is disabled (C55) and, under an enabled one, in the form the debugger prints"},
{"property": "C98", "status": "proved", "theorems": ["C98_attach", "C98_session"], "note": "VMs that wait at their beginning, with at most ten registers and four float registers (C99); the connection succeeds; the sessions are those of C84"},
{"property": "C99", "status": "partial", "theorems": ["C99_register_refuted", "C99_breakpoint_refuted"], "note": "refuted: with more registers in the VM than the debugger counts (ten), for all states and values"},
{"property": "C100", "status": "proved", "theorems": ["C100_displayed", "C100_only", "C100_assigned"], "note": "for expressions without assignments and for assignments at the top"},
{"property": "C101", "status": "proved", "theorems": ["C101_frame"], "note": "for every nesting of scopes; fuel is asked to be large enough for the values displayed; gap: the address range of a function is looked up by the model's own function_addr in the statement, not by a separate specification (a seeded bug there survived, see seeded/LOG.jsonl)"},
{"property": "C102", "status": "partial", "theorems": ["C102_unsigned_refuted"], "note": "refuted: for every variable of the type unsigned in scope, whatever comes before it and wherever it is"},
{"property": "C103", "status": "partial", "theorems": ["C103_past_the_end_refuted"], "note": "refuted: for every array of chars without a zero, in all memories"},
{"property": "C104", "status": "proved", "theorems": ["C104_no_file", "C104_rejected", "C104_printed", "C104_ends"], "note": "the instructions must be ones the ISA allows a program to contain (no computed writes to IP: keeps_ip, C01), the data fit into the memory, doubles are 64-bit patterns; ending: no instruction both loads and stores (C10). Undefined behaviour (C12, C15) is the outcome Dies; when it cannot happen is C107"},
{"property": "C105", "status": "partial", "theorems": ["C105_dies_refuted"], "note": "refuted: for all texts after an unreadable first character, and for all programs with more data than memory"},
{"property": "C106", "status": "partial", "theorems": ["C106_status_refuted"], "note": "refuted for every program and run; C106_case is a run with an error"},
{"property": "C107", "status": "proved", "theorems": ["C107_no_other_error", "C107_no_error", "C107_process_lives", "C107_no_complaint", "C107_completes", "C107_halts", "C107_goes_on"], "note": "signed overflow wraps (C12); for C107_halts and C107_goes_on shifts are by constants 1..63 and no instruction both loads and stores (C10); programs outside the class: C40, C45, C46, C47; C107_needed shows that they die"},
{"property": "C108", "status": "proved", "theorems": ["C108_counts", "C108_kinds", "C108_lifetimes"], "note": "the program must be one the ISA allows (keeps_ip, C01) and typed; the identification numbers do not wrap at 2^64; lines about which registers and cells are waited for are not modelled"},
{"property": "C109", "status": "partial", "theorems": ["C109_fetch_stalls_refuted", "C109_decode_stalls_refuted"], "note": "refuted: for every halted run with two or more instructions (fewer than 2^64 ticks)"},
{"property": "C110", "status": "proved", "theorems": ["C110_lives", "C110_only_memory", "C110_breakpoints", "C110_debugging", "C110_step_answered", "C110_served"], "note": "signed overflow wraps (C12); commands outside the class: C53; writing into a cell with a store on its way: C19; C110_lives also allows other changes of the program that keep it in the class; C110_three_entries shows that the bound of two entries is needed for C110_debugging"},
{"property": "C111", "status": "proved", "theorems": ["C111_step", "C111_continue"], "note": "at most two reservation station entries, as t86-cli has; fuel is the bound on ticks waited for: 90 suffice; that the machine has come to its state by commands within the limits of C110 is a hypothesis of its own (ah_came)"},
{"property": "C112", "status": "proved", "theorems": ["C112_registers", "C112_memory", "C112_replies", "C112_ip"], "note": "signed overflow as the machine code does it or as undefined behaviour; sessions may contain any commands with 64-bit values, polite or not"},
{"property": "C113", "status": "proved", "theorems": ["C113_sizes", "C113_no_number"], "note": "Cpu::Config is taken to be used first after the command line has been parsed; that there is memory for the sizes is assumed"},
{"property": "C114", "status": "partial", "theorems": ["C114_default_machine_refuted", "C114_data_refuted", "C114_entries_refuted"], "note": "refuted: Cpu() passes the number of ALUs for the float registers and that of reservation station entries for the memory size; no constructor uses the configured number of entries"},
{"property": "C115", "status": "proved", "theorems": ["C115_refused"], "note": "for every state of the debugger with a debuggee"},
{"property": "C116", "status": "partial", "theorems": ["C116_wraps_refuted"], "note": "refuted: the end of the range wraps in T86Process::ReadMemory and WriteMemory"},
{"property": "C117", "status": "proved", "theorems": ["C117_tokens", "C117_one_reading", "C117_file", "C117_file_with_source", "C117_expression"], "note": "std::stod is a parameter; the character 255, which the code takes for the end of the text, is excluded from strings and comments"},
{"property": "C118", "status": "partial", "theorems": ["C118_help", "C118_alone", "C118_other", "C118_a_refuted"], "note": "refuted: `a` alone runs attach, but `help a` shows the page on assemble; proved for every other word and abbreviation"}
]}
