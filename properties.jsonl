{"id": "C01", "title": "Instruction decoding partitions the bytecode", "statement": "Iterating the opcodes of any bytecode visits program counters in strictly increasing order, and every byte of the code is either the opcode byte of exactly one yielded instruction or one of its immediate bytes; each yielded immediate is exactly the bytes that follow its opcode, and only the last instruction can have a truncated (missing) immediate.", "quantifier": "all byte strings, all opcode tables (hardforks)", "why_tests_cant": "Quantifies over every byte string, including every way an immediate can be cut off by the end of the code or be shadowed by another immediate.", "anchors": ["crates/revmc-codegen/src/bytecode/opcode.rs: OpcodesIter, OpcodesIterWithPc, min_imm_len"]}
{"id": "C02", "title": "The set of accepted jump destinations is the EVM's", "statement": "For every bytecode the compiler accepts a program counter as a jump destination iff the EVM's JUMPDEST analysis does: the byte there is 0x5b and it is not inside the immediate of a PUSH instruction reached by scanning from pc 0.", "quantifier": "all byte strings, all program counters, all hardforks", "why_tests_cant": "An attacker chooses the bytecode; agreement must hold for all strings, in particular for overlaps of DUPN/SWAPN/EXCHANGE immediates with PUSH bytes that no test list enumerates.", "anchors": ["crates/revmc-codegen/src/bytecode/mod.rs: Bytecode::new_mono (jumpdests, rewind of 0x5b), is_valid_jump", "crates/revmc-codegen/src/bytecode/opcode.rs: OpcodesIter::rewind"]}
{"id": "C03", "title": "EIP-8024 immediates round-trip", "statement": "Every byte that decodes as a DUPN/SWAPN operand re-encodes to that byte and every encodable depth (17..=235) decodes back to itself; same for EXCHANGE pairs (1<=n<m, n+m<=30); exactly the bytes 0x5b..=0x7f are rejected for single operands and 0x52..=0x7f for pairs, so no accepted single-operand immediate can be mistaken for JUMPDEST or PUSH.", "quantifier": "all bytes, all operand depths and pairs", "why_tests_cant": "It is a two-sided bijection claim over every byte and every operand including out-of-range ones.", "anchors": ["crates/revmc-codegen/src/bytecode/opcode.rs: decode_single, encode_single, decode_pair, encode_pair"]}
{"id": "C04", "title": "Interned immediates are recovered exactly", "statement": "The constant pushed by compiled code for a PUSH is the big-endian value of its immediate bytes whatever other constants the bytecode mentions: storing any 256-bit value in the immediate table and reading it back yields the same value, earlier handles stay valid as more values are stored, and two values get the same handle only if they are equal.", "quantifier": "all sequences of 256-bit values, all handles", "why_tests_cant": "Depends on the whole history of stored constants and on the inline/interned boundary at 2^31.", "anchors": ["crates/revmc-codegen/src/bytecode/mod.rs: U256Imm", "crates/revmc-codegen/src/bytecode/interner.rs: Interner"]}
{"id": "C05", "title": "Constant folding computes EVM arithmetic", "statement": "Whenever the compiler replaces an instruction on constant operands by a constant, the constant equals the result the EVM defines for that opcode and those operands (ADD..CLZ, signed division and modulo, ADDMOD/MULMOD over unbounded intermediates, SIGNEXTEND, BYTE, shifts by any amount, EXP modulo 2^256).", "quantifier": "all foldable opcodes, all 256-bit operands", "why_tests_cant": "2^512 or 2^768 operand combinations per opcode.", "anchors": ["crates/revmc-codegen/src/bytecode/passes/const_fold.rs: try_const_fold"]}
{"id": "C06", "title": "EXP gas is the same whether folded or computed at run time", "statement": "The gas added statically when EXP's exponent is a compile-time constant equals the gas the run-time path charges for that exponent (per-byte cost times byte length of the exponent), for every gas schedule.", "quantifier": "all exponents, all per-byte costs", "why_tests_cant": "All 256-bit exponents and all schedules.", "anchors": ["crates/revmc-codegen/src/bytecode/passes/const_fold.rs: const_fold_gas", "crates/revmc-builtins/src/lib.rs: __revmc_builtin_exp, __revmc_builtin_exp_gas", "crates/revmc-codegen/src/compiler/translate/peephole.rs: exp"]}
{"id": "C07", "title": "Charging gas per section is unobservable", "statement": "Charging the static gas of a whole gas section at its head gives, for every execution, the same gas left at every GAS-observing or state-changing instruction and the same out-of-gas verdict as charging every instruction separately.", "quantifier": "all instruction sequences, all gas limits, all dynamic costs charged in between", "why_tests_cant": "Every partition of every instruction sequence and every starting gas.", "anchors": ["crates/revmc-codegen/src/bytecode/passes/sections.rs: GasSectionAnalysis, SectionsAnalysis::process", "crates/revmc-codegen/src/compiler/translate/mod.rs: translate_inst, gas_cost"]}
{"id": "C08", "title": "One stack check per section replaces all per-instruction checks", "statement": "The single underflow/overflow test at the head of a stack section succeeds iff none of the instructions of the section would underflow (fewer items than its inputs) or overflow (more than 1024 items) when executed one after the other.", "quantifier": "all instruction sequences with arbitrary stack effects, all entry stack heights", "why_tests_cant": "All sequences, all heights.", "anchors": ["crates/revmc-codegen/src/bytecode/passes/sections.rs: StackSectionAnalysis", "crates/revmc-codegen/src/compiler/translate/mod.rs: check_stack_bounds"]}
{"id": "C09", "title": "Section bookkeeping tolerates any contract the runtime accepts", "statement": "For every bytecode the runtime considers eligible, the section summaries (inputs, maximum growth) are exact, so that every stack slot the later passes index lies inside the tables sized from those summaries; no bytecode makes compilation panic.", "quantifier": "all bytecodes up to the eligibility limit", "why_tests_cant": "Saturation at u16/i16 needs tens of thousands of instructions of particular shapes.", "anchors": ["crates/revmc-codegen/src/bytecode/passes/sections.rs: StackSectionAnalysis::section", "crates/revmc-codegen/src/bytecode/passes/dead_store_elim.rs: dead_store_elim", "crates/revmc-codegen/src/compiler/translate/vstack.rs: VStack::reset", "crates/revmc-runtime/src/runtime/config.rs: should_compile"]}
{"id": "C10", "title": "Skipped memory checks are never needed", "statement": "Whenever generated code accesses memory without a size check, or resizes to a precomputed size, the memory size in every execution reaching that instruction already covers (resp. becomes exactly what) the access requires, so gas charged for memory expansion and MSIZE are those of the EVM.", "quantifier": "all control-flow graphs, all paths, all constant accesses", "why_tests_cant": "Quantifies over all paths through all CFGs, including loops.", "anchors": ["crates/revmc-codegen/src/bytecode/passes/memory_sections.rs", "crates/revmc-codegen/src/compiler/translate/mod.rs: build_ensure_memory, can_skip_ensure_memory"]}
{"id": "C11", "title": "Code marked dead is never executed", "statement": "No execution of the bytecode reaches an instruction that the compiler has marked as dead code.", "quantifier": "all bytecodes, all executions", "why_tests_cant": "All programs and all paths.", "anchors": ["crates/revmc-codegen/src/bytecode/mod.rs: mark_dead_code, mark_dead_code_once, recompute_reachable_jumpdests"]}
{"id": "C12", "title": "Statically resolved jumps go where the EVM goes", "statement": "If the compiler turns a JUMP/JUMPI into a direct branch (to one target, or a switch over several), every execution of that instruction that jumps transfers control to that target (to one of them); if it marks the jump invalid, every execution that takes it fails with InvalidJump.", "quantifier": "all bytecodes, all executions", "why_tests_cant": "All programs, all paths through loops and shared subroutines.", "anchors": ["crates/revmc-codegen/src/bytecode/passes/block_analysis.rs: block_analysis, run_abstract_interp, run_fixpoint, resolve_jump, commit_resolved_jumps, invalidate_suspect_jumps"]}
{"id": "C13", "title": "Constant operands claimed by the analysis are constant", "statement": "If the compiler treats a stack operand or result of an instruction as the constant c, then in every execution that reaches the instruction that operand (result) equals c.", "quantifier": "all bytecodes, all executions, all operand depths", "why_tests_cant": "All programs, all paths; a single path reaching the instruction with another value falsifies it.", "anchors": ["crates/revmc-codegen/src/bytecode/passes/block_analysis.rs: BlockState::join, interpret_block, run_fixpoint, MAX_ABS_STACK_DEPTH", "crates/revmc-codegen/src/bytecode/mod.rs: const_operand, const_output"]}
{"id": "C14", "title": "Abstract value joins lose no possibility", "statement": "Joining two abstract values or stacks at a control-flow merge describes every concrete value either side describes (for stacks: every slot the abstraction keeps, at most 64 from the top); a join that reports no change leaves the state as it was, so the incoming state was already described.", "quantifier": "all abstract stacks and values", "why_tests_cant": "All pairs of abstract states, all alignments of stacks with different depths.", "anchors": ["crates/revmc-codegen/src/bytecode/passes/block_analysis.rs: ConstSetInterner::join, BlockState::join"]}
{"id": "C15", "title": "The block analysis always terminates", "statement": "For every bytecode the analysis performs a number of block interpretations bounded by a function of the number of blocks, and when the bound is hit it discards everything learned rather than using a non-fixpoint.", "quantifier": "all bytecodes", "why_tests_cant": "Unbounded family of CFGs.", "anchors": ["crates/revmc-codegen/src/bytecode/passes/block_analysis.rs: run_fixpoint (max_iterations), run_abstract_interp"]}
{"id": "C16", "title": "Block deduplication merges only equivalent blocks", "statement": "Two basic blocks are merged only if executing either from the same machine state yields the same machine state and the same continuation.", "quantifier": "all pairs of blocks", "why_tests_cant": "All pairs of byte sequences and all constant tables; the criterion is a byte fingerprint whose injectivity is the question.", "anchors": ["crates/revmc-codegen/src/bytecode/passes/dedup.rs: dedup_blocks_once, block_fingerprint"]}
{"id": "C17", "title": "Redirects of merged blocks always resolve", "statement": "After deduplication every control-flow edge into a removed block is redirected to a live block; redirect chains are acyclic and resolve to the same final block independent of order.", "quantifier": "all redirect histories", "why_tests_cant": "All chains produced by repeated rounds.", "anchors": ["crates/revmc-codegen/src/bytecode/passes/dedup.rs", "crates/revmc-codegen/src/bytecode/passes/block_analysis.rs: compress_redirects, rebuild_cfg"]}
{"id": "C18", "title": "Dead-store elimination is unobservable", "statement": "Skipping the instructions that dead-store elimination marks as no-ops leaves every later observable action of the block, and the stack contents that any successor or resumption reads, unchanged for every initial stack.", "quantifier": "all blocks, all entry stacks", "why_tests_cant": "All instruction sequences; liveness errors depend on combinations of DUP/SWAP/EXCHANGE depths.", "anchors": ["crates/revmc-codegen/src/bytecode/passes/dead_store_elim.rs"]}
{"id": "C19", "title": "The virtual stack represents the EVM stack", "statement": "At every point of a section the pair (slots kept virtual, slots in memory) that code generation maintains represents exactly the EVM stack, for every sequence of pushes, pops, duplications, exchanges and spills; spilling writes exactly the pending slots.", "quantifier": "all operation sequences, all section shapes", "why_tests_cant": "All interleavings of pushes, drops, exchanges and partial materializations.", "anchors": ["crates/revmc-codegen/src/compiler/translate/vstack.rs: VStack", "crates/revmc-codegen/src/compiler/translate/mod.rs: sync_noop_diff, sync_virtual_stack_diff, materialize_range, relieve_vstack_pressure"]}
{"id": "C20", "title": "Peephole lowerings equal the EVM operation", "statement": "For every opcode with a constant operand that code generation lowers to cheaper code (DIV, SDIV, MOD, SMOD, ADDMOD, MULMOD, EXP, SIGNEXTEND, BYTE), the lowered expression equals the EVM result for every value of the non-constant operands.", "quantifier": "all constants triggering the lowering, all other operands", "why_tests_cant": "2^256 values of each non-constant operand.", "anchors": ["crates/revmc-codegen/src/compiler/translate/peephole.rs"]}
{"id": "C21", "title": "Inline lowering of SIGNEXTEND, BYTE, shifts and comparisons is exact", "statement": "The straight-line integer code generated for SIGNEXTEND, BYTE, SHL, SHR, SAR, SLT/SGT and friends computes the EVM result for all 256-bit operands including out-of-range shift amounts and indices, and never evaluates a shift by 256 or more whose (poison) result is selected.", "quantifier": "all 256-bit operands", "why_tests_cant": "2^512 operand pairs.", "anchors": ["crates/revmc-codegen/src/compiler/translate/mod.rs: translate_inst"]}
{"id": "C22", "title": "Huge memory offsets always run out of gas", "statement": "Clamping 256-bit memory offsets and lengths to 64 bits never changes the outcome: an access whose true end exceeds the clamped range fails in the compiled code exactly as it does in the EVM, and an access within range is performed at the true address.", "quantifier": "all 256-bit offsets and lengths", "why_tests_cant": "2^512 offset/length pairs around wrap-around boundaries.", "anchors": ["crates/revmc-codegen/src/compiler/translate/mod.rs: build_ensure_memory, u256_to_u64_saturating", "crates/revmc-builtins/src/macros.rs: try_into_usize"]}
{"id": "C23", "title": "Gas never wraps into extra gas", "statement": "Remaining gas never increases by charging; a charge larger than the remaining gas always ends execution with OutOfGas and the caller then observes zero remaining gas even though the stored counter has wrapped.", "quantifier": "all gas amounts and charge sequences", "why_tests_cant": "All 64-bit amounts; the wrapped counter is stored before the check.", "anchors": ["crates/revmc-codegen/src/compiler/translate/mod.rs: gas_cost", "crates/revmc-context/src/lib.rs: call_with_interpreter_inner"]}
{"id": "C24", "title": "Dynamic jumps accept exactly the valid destinations", "statement": "The generated jump table for unresolved jumps sends each valid JUMPDEST value to the block of that JUMPDEST and every other 256-bit value to InvalidJump.", "quantifier": "all bytecodes, all 256-bit jump operands", "why_tests_cant": "All 256-bit values and all bytecodes after dead-code removal and deduplication.", "anchors": ["crates/revmc-codegen/src/compiler/translate/mod.rs: translate (dynamic jump table)"]}
{"id": "C25", "title": "Resume points are unambiguous", "statement": "Each suspend point of a compiled contract is stored as an index in 1..=N with N at most the code length, re-entering with that index continues right after that CALL/CREATE with the saved stack plus the call result, index 0 starts from the beginning, and no two suspend points share an index.", "quantifier": "all bytecodes, all suspend points", "why_tests_cant": "All programs and any nesting of suspensions.", "anchors": ["crates/revmc-codegen/src/compiler/translate/mod.rs: translate (resume table), call_fallible suspend", "crates/revmc-context/src/lib.rs: ResumeAt"]}
{"id": "C26", "title": "Compiler instance life cycle", "statement": "After a module has been finalized no further function can be added until it is cleared; finalizing twice is a no-op; names of functions in one module are unique; a failed call leaves the instance usable after clear.", "quantifier": "all call sequences on a compiler instance", "why_tests_cant": "All interleavings of translate / jit / write_object / clear / clear_ir calls.", "anchors": ["crates/revmc-codegen/src/compiler/mod.rs: EvmCompiler"]}
{"id": "C27", "title": "Lookups return only matching programs", "statement": "A lookup answered with a compiled program returns one that was compiled (or loaded) for the requested (code hash, hardfork) key from bytecode that some caller supplied under that same key, and never answers from a disabled backend.", "quantifier": "all histories of lookups, compile requests, worker completions, clears, evictions", "why_tests_cant": "All interleavings of client calls and worker completions.", "anchors": ["crates/revmc-runtime/src/runtime/mod.rs: JitBackend::lookup", "crates/revmc-runtime/src/runtime/backend.rs: try_admit, handle_worker_result, insert_resident"]}
{"id": "C28", "title": "Clearing is a barrier for in-flight compilations", "statement": "A program whose compilation was dispatched before clear_resident/clear_all is processed never becomes visible to lookups afterwards.", "quantifier": "all histories, all completion orders", "why_tests_cant": "All orders of worker completions relative to clears.", "anchors": ["crates/revmc-runtime/src/runtime/backend.rs: handle_clear_resident, handle_worker_result (generation)"]}
{"id": "C29", "title": "At most one compilation in flight per key", "statement": "While a key is being compiled, further requests for it join the running compilation instead of dispatching another one.", "quantifier": "all histories of requests, completions and clears", "why_tests_cant": "Needs particular interleavings of clear, re-request and stale completion.", "anchors": ["crates/revmc-runtime/src/runtime/backend.rs: try_admit, handle_worker_result, handle_clear_resident"]}
{"id": "C30", "title": "Synchronous callers are released exactly once and not too early", "statement": "Every compile_jit_sync call is released exactly once, provided workers answer; it is released only when the request was refused, its key is resident, the compilation of its key (in its generation) finished, or the cache was cleared.", "quantifier": "all histories and completion orders", "why_tests_cant": "Liveness and uniqueness over all schedules.", "anchors": ["crates/revmc-runtime/src/runtime/backend.rs: try_admit, handle_worker_result, handle_clear_resident", "crates/revmc-runtime/src/runtime/worker.rs: SyncNotifier", "crates/revmc-runtime/src/runtime/mod.rs: compile_jit_sync"]}
{"id": "C31", "title": "Admission limits are respected", "statement": "The number of compilations in flight never exceeds jit_max_pending_jobs nor the number queued the worker-queue capacity, and the number of tracked keys created by observation stays below ten times the pending limit plus explicit requests.", "quantifier": "all histories", "why_tests_cant": "All interleavings of admissions and completions, including saturating decrements on stale results.", "anchors": ["crates/revmc-runtime/src/runtime/backend.rs: try_admit, pending_jobs", "crates/revmc-runtime/src/runtime/worker.rs: WorkerPool::try_send"]}
{"id": "C32", "title": "The pending_jobs statistic counts jobs in flight", "statement": "The pending_jobs value in a statistics snapshot equals the number of compilations dispatched whose result has not yet been processed.", "quantifier": "all histories", "why_tests_cant": "Needs histories in which results are discarded.", "anchors": ["crates/revmc-runtime/src/runtime/stats.rs: RuntimeStats::snapshot", "crates/revmc-runtime/src/runtime/backend.rs: handle_worker_result"]}
{"id": "C33", "title": "Hotness gating", "statement": "Observed misses alone dispatch a compilation of a key only after at least jit_hot_threshold processed misses of that key since the key was last forgotten; explicit requests are dispatched without any hotness.", "quantifier": "all histories, all thresholds", "why_tests_cant": "All interleavings of misses, evictions and completions.", "anchors": ["crates/revmc-runtime/src/runtime/backend.rs: try_admit, handle_lookup_observed"]}
{"id": "C34", "title": "Eviction removes only what it may", "statement": "A sweep removes a resident program only if it was idle longer than the configured duration, or if JIT memory exceeds the budget, in which case JIT programs go in least-recently-used order and stop as soon as the budget is met; AOT programs are never evicted for the budget; eviction metadata and resident map always have the same keys.", "quantifier": "all resident sets, clocks, budgets and memory sizes", "why_tests_cant": "All histories, all tie patterns.", "anchors": ["crates/revmc-runtime/src/runtime/backend.rs: run_eviction_sweep, should_sweep, insert_resident, remove_resident"]}
{"id": "C35", "title": "Balanced pause/resume leaves the helper running, nesting keeps it paused", "statement": "While more pauses than resumes have been issued the compilation helper is (eventually) stopped, and once every pause has been matched by a resume it is running again.", "quantifier": "all interleavings of pause and resume from any number of threads, any command-queue fill level", "why_tests_cant": "Depends on the race between the depth counter and the command queue.", "anchors": ["crates/revmc-runtime/src/runtime/mod.rs: pause, resume, try_send_control", "crates/revmc-runtime/src/runtime/out_of_process.rs: HelperProcess::pause, resume"]}
{"id": "C36", "title": "Lookup accounting is exact", "statement": "Every processed lookup is counted exactly once as a hit or a miss according to the decision it returned; lookups performed = hits + misses + dropped + still queued + discarded by clears.", "quantifier": "all histories, all queue capacities", "why_tests_cant": "All interleavings of producers and the drain loop; hits are encoded as an event with empty code.", "anchors": ["crates/revmc-runtime/src/runtime/mod.rs: lookup", "crates/revmc-runtime/src/runtime/backend.rs: handle_lookup_observed, drain_events"]}
{"id": "C37", "title": "Artifact store behaves like a map", "statement": "Loading a key from the runtime artifact store returns the manifest and file of the most recent store of exactly that key since the last delete/clear, different keys never share a file, and delete/clear remove the files.", "quantifier": "all operation sequences, all keys", "why_tests_cant": "All operation sequences and all key pairs (file-name injectivity).", "anchors": ["crates/revmc-runtime/src/runtime/storage.rs: RuntimeArtifactStore"]}
{"id": "C38", "title": "Programs handed out stay valid", "statement": "The machine code of a program returned by lookup is neither unmapped nor overwritten while the caller still holds the returned reference.", "quantifier": "all histories of lookups, evictions, clears, recompilations", "why_tests_cant": "Needs a specific interleaving of clear, duplicate dispatch and re-store.", "anchors": ["crates/revmc-runtime/src/runtime/api.rs: CompiledProgram, ProgramBacking", "crates/revmc-runtime/src/runtime/storage.rs: RuntimeArtifactStore::store", "crates/revmc-runtime/src/runtime/backend.rs: handle_aot_success"]}
{"id": "C39", "title": "Startup preload honours the artifact identity", "statement": "Preloading installs at most one program per runtime key, skips artifacts that fail to load without losing others, and installs an artifact only if all fields of its key (including optimization level) match the configuration.", "quantifier": "all store contents", "why_tests_cant": "All store contents and duplicates.", "anchors": ["crates/revmc-runtime/src/runtime/mod.rs: preload_aot", "crates/revmc-runtime/src/runtime/storage.rs: ArtifactKey"]}
{"id": "C40", "title": "Helper responses reach the job that asked", "statement": "In out-of-process mode each compile request receives the response produced for its own id or an error, never another job's object code, for any completion order, restart, or disconnect.", "quantifier": "all interleavings of requests, responses, timeouts and restarts", "why_tests_cant": "All completion orders.", "anchors": ["crates/revmc-runtime/src/runtime/out_of_process.rs: HelperProcessInner::compile, reader thread, HelperProcess::compile"]}
{"id": "C41", "title": "Configuration survives the trip to the helper", "statement": "The helper compiles with the same code-affecting options, gas schedule, hardfork and optimization level as the parent configured; malformed gas tables are rejected.", "quantifier": "all configurations, all gas tables", "why_tests_cant": "All 256-entry tables and malformed pair lists.", "anchors": ["crates/revmc-runtime/src/runtime/out_of_process.rs: helper_init, runtime_config_from_init, gas_params_to_pairs, gas_params_from_pairs, opt_level_to_u8"]}
{"id": "C42", "title": "Assembler labels resolve to their addresses", "statement": "In the bytecode produced from any assembly text, every label reference pushes exactly the offset of the first byte after the label's position, the chosen push widths are large enough, and the layout loop terminates.", "quantifier": "all item lists", "why_tests_cant": "Layout is a fixpoint over mutually dependent push sizes.", "anchors": ["crates/revmc-codegen/src/bytecode/asm.rs: layout_and_emit, min_push_width, encode_imm"]}
{"id": "C43", "title": "Assembler output decodes to the written instructions", "statement": "Decoding assembled bytecode yields exactly the instructions written, with their immediates, in order.", "quantifier": "all item lists", "why_tests_cant": "All programs.", "anchors": ["crates/revmc-codegen/src/bytecode/asm.rs: layout_and_emit, encode_imm", "crates/revmc-codegen/src/bytecode/opcode.rs: OpcodesIter"]}
{"id": "C44", "title": "Word conversions are lossless", "statement": "Converting between 256-bit integers, EVM stack words and big/little-endian byte strings round-trips, addresses are the low 160 bits, and conversion to a machine integer succeeds iff the value fits.", "quantifier": "all 256-bit words", "why_tests_cant": "2^256 words.", "anchors": ["crates/revmc-context/src/lib.rs: EvmWord", "crates/revmc-builtins/src/macros.rs: try_into_usize"]}
{"id": "C45", "title": "Data-copy builtins read out-of-range bytes as zero", "statement": "CALLDATALOAD and the copy instructions deliver data[offset+i] or zero beyond the end for every offset including ones that do not fit in 64 bits; RETURNDATACOPY instead fails exactly when offset+len exceeds the return data.", "quantifier": "all offsets, lengths and data", "why_tests_cant": "All 256-bit offsets.", "anchors": ["crates/revmc-builtins/src/lib.rs: do_calldataload, __revmc_builtin_returndatacopy", "crates/revmc-builtins/src/utils.rs: copy_operation"]}
{"id": "C46", "title": "BLOCKHASH window", "statement": "BLOCKHASH returns the host's hash exactly for the 256 blocks preceding the current one and zero for the current, future and older blocks.", "quantifier": "all 256-bit block numbers and requests", "why_tests_cant": "All 256-bit pairs including saturation.", "anchors": ["crates/revmc-builtins/src/lib.rs: __revmc_builtin_blockhash"]}
{"id": "C47", "title": "Gas forwarded to calls", "statement": "A CALL/CREATE charges exactly the gas it forwards, forwards at most all-but-one-64th of what remains (from Tangerine), adds the stipend only when value is transferred, and fails OutOfGas rather than forwarding more than remains.", "quantifier": "all gas amounts, all requested limits", "why_tests_cant": "All 64-bit/256-bit amounts.", "anchors": ["crates/revmc-builtins/src/lib.rs: __revmc_builtin_call, __revmc_builtin_create"]}
{"id": "C48", "title": "Instructions unavailable in a hardfork fail", "statement": "An opcode not available in the compilation hardfork ends execution with NotActivated/OpcodeNotFound before charging gas or touching the stack, and opcode availability is monotone in the hardfork.", "quantifier": "all opcodes, all hardforks", "why_tests_cant": "All opcode/hardfork pairs (finite but large), and all contexts.", "anchors": ["crates/revmc-codegen/src/bytecode/info.rs: SPEC_GATED_OPCODES, make_map", "crates/revmc-codegen/src/compiler/translate/mod.rs: translate_inst"]}
{"id": "C49", "title": "A helper pause never makes a job time out", "statement": "A job dispatched to the out-of-process helper is failed for taking too long only if a full timeout period elapsed in which the helper was not paused at the moment of expiry; pausing alone never fails a job, and a timed-out job's late response is dropped.", "quantifier": "all timings of pause, resume, response", "why_tests_cant": "All interleavings of timer expiry, pause flag and responses.", "anchors": ["crates/revmc-runtime/src/runtime/out_of_process.rs: HelperProcessInner::compile"]}
{"id": "C50", "title": "Compile-time evaluation is paid for at EVM prices and never exceeds its budget", "statement": "Every instruction the analysis evaluates at compile time is charged exactly the EVM's static price of that instruction (10 + 50 per exponent byte for EXP) to the compiler gas counter, instructions that are not evaluated are charged nothing, and the counter never exceeds the configured limit; the whole analysis, with or without deduplication, interprets at most 9 blocks per instruction and evaluates at most limit/2 instructions; with limit 0 no result of an arithmetic instruction is known.", "quantifier": "all bytecodes, limits and abstract stacks; all fixpoint schedules the code can take", "why_tests_cant": "An attacker chooses the bytecode; unit tests look at a few exponent bombs, the bound must hold for every program, join order and non-converging loop.", "anchors": ["crates/revmc-codegen/src/bytecode/passes/const_fold.rs: const_fold_gas", "crates/revmc-codegen/src/bytecode/passes/block_analysis.rs: interpret_block, run_fixpoint", "crates/revmc-codegen/src/bytecode/mod.rs: analyze"]}
{"id": "C51", "title": "Dispatching frames to compiled programs does not change execution", "statement": "An EVM wrapped in a JitEvm gives, for every sequence of transactions, replays and system calls (inspected or not), with the spec, backend, inspector or context changed in between, the same results, context and inspector events as the wrapped EVM alone, whatever the backend answers and whenever programs appear or disappear: a frame suspended for a CALL/CREATE is always continued by the engine that suspended it, because the saved program counter means a bytecode position to the interpreter and a resume index to a compiled program.", "quantifier": "all uses of a JitEvm, all backend answers over time, all frame trees", "why_tests_cant": "the timing of background compilation relative to suspended frames is not controlled by tests; statetests use one warmed-up or blocking backend", "anchors": ["crates/revmc-runtime/src/revm_evm.rs:37-207,232-295,352-472", "crates/revmc-context/src/jit_evm.rs:120-148,233-297", "crates/revmc-context/src/lib.rs:31-60,262-350"]}
{"id": "C52", "title": "Compiler recycling", "statement": "A worker thread replaces its compiler by a newly created one exactly after every compiler_recycle_threshold compilations while creating compilers succeeds; if creating one fails, the old one is kept and replacing is tried again after at most that many further compilations; a threshold of 0 never replaces it.", "quantifier": "all configurations, all job sequences, all outcomes of creating a compiler", "why_tests_cant": "All sequences of jobs and creation failures.", "anchors": ["crates/revmc-runtime/src/runtime/worker.rs: compile_with_state"]}
{"id": "C53", "title": "Static frames change nothing", "statement": "Nothing a static frame does through the builtins, nor anything done by the frames it calls to any depth, changes the observable state (balances, storage, transient storage, logs); a frame called by STATICCALL is static whoever calls it, and the flag is inherited. The instructions refused in static frames are exactly those of EIP-214/EIP-1153 (SSTORE, TSTORE, LOG, CREATE, CREATE2, SELFDESTRUCT, CALL with value), refused before anything else happens, and that error never occurs in other frames.", "quantifier": "all sequences of builtins with all operands, all nestings of calls, all hosts whose loads and null transfers keep the observable state", "why_tests_cant": "All call trees, operands and interleavings.", "anchors": ["crates/revmc-builtins/src/lib.rs: __revmc_builtin_{sstore,tstore,log,create,call,selfdestruct}", "crates/revmc-builtins/src/macros.rs: ensure_non_staticcall!"]}
{"id": "C54", "title": "Cold accesses and stores are priced as if items were always loaded", "statement": "BALANCE, EXTCODESIZE, EXTCODEHASH, SLOAD, SSTORE and SELFDESTRUCT give the result, gas, state gas, refund and world of loading the item unconditionally and then paying its price (surcharge exactly for cold items, from Berlin on for slots), or run out of gas: skipping loads that cannot be paid for is not observable. SSTORE fails by the EIP-2200 sentry exactly when at most the stipend is left (Istanbul on, outside static frames), before anything happens; SELFDESTRUCT pays for a new account exactly when the beneficiary does not exist and, from EIP-161 on, receives value.", "quantifier": "all hosts that skip only cold items, all gas schedules in which cold prices include the surcharge, all forks, operands and gas amounts", "why_tests_cant": "All gas amounts around every threshold, all schedules.", "anchors": ["crates/revmc-builtins/src/lib.rs: __revmc_builtin_{sload,sstore,selfdestruct,balance,extcodesize,extcodehash}", "crates/revmc-builtins/src/utils.rs: load_account"]}
{"id": "C55", "title": "The cached memory pointer is never stale", "statement": "The compiled code loads the pointer to the start of memory once and reuses it for later MLOAD, MSTORE and MSTORE8. In every execution, each of these accesses goes through a pointer that is where memory is at that moment: whatever may move memory in between (growth by any instruction, or other frames running during CALL and CREATE, or another path into the section) makes the compiler load it again. None of these instructions is dropped as a no-op or folded constant.", "quantifier": "all bytecodes, all executions of any length, all ways memory may move when it grows or while other frames run, with and without dead store elimination, whichever arithmetic builtins are inlined", "why_tests_cant": "A stale pointer is only visible if the allocator moves the buffer; all combinations of constant accesses, builtins and control flow.", "anchors": ["crates/revmc-codegen/src/compiler/translate/mod.rs: cached_mem_base, build_ensure_memory, build_memory_addr, call_builtin, translate_inst", "crates/revmc-codegen/src/bytecode/passes/memory_sections.rs"]}
{"id": "C56", "title": "A translated contract executes as the EVM does", "statement": "Take a contract through loading, the constant analysis, dead store elimination and sectioning, and translate each live instruction correctly (its own computation, arities, constants and section as the analyses recorded them). Then the code that the translation loop strings together, block by block, with the virtual stack flushed and reset between blocks, jumps lowered to branches, switches and fall-throughs, is never stuck. Whenever it is between two blocks, the EVM executing the original bytecode reaches the instruction the code is about to execute, with the same state and exactly the stack the code holds in memory. When the code returns, the EVM ends in the same final state; when one of the stack-bounds checks at section heads fails, the EVM's execution ends exceptionally; and when the EVM's execution ends, the code ends after at most as many blocks as the EVM executed instructions: with a stack error if the EVM's execution ends with one, in the same final state if the EVM's end is not exceptional.", "quantifier": "all bytecodes up to 10879 bytes, all opcode tables, all semantics of the opaque instructions on any state, all executions of any length including those that never end, all correct per-instruction translations, both values of the inspect option", "why_tests_cant": "Executions and contracts are unbounded; a wrong block order, a wrong fall-through target, a wrong jump table entry, or a value lost at a block boundary shows only for particular contracts and inputs.", "anchors": ["crates/revmc-codegen/src/compiler/translate/mod.rs: translate, translate_inst, build_fail/goto_return, JUMP/JUMPI lowering (972-1057), fall-through (514-522), check_stack_bounds (600-603, 1764-1803)", "crates/revmc-codegen/src/bytecode/passes/mod.rs", "crates/revmc-codegen/src/bytecode/passes/block_analysis.rs", "crates/revmc-codegen/src/bytecode/passes/dead_store_elim.rs", "crates/revmc-codegen/src/bytecode/passes/sections.rs"]}
{"id": "C57", "title": "Assembly text has one reading; the colored listing shows the plain one", "statement": "Every text has exactly one division into tokens according to the assembler's lexical grammar (white space, comments, labels, label and parameter references, numbers, identifiers, punctuation, runs of other characters, each as long as possible), and the tokenizer produces it: it always terminates, each token takes at least one character, and the tokens written one after the other are the text. The colored bytecode listing, produced with the same tokenizer, is the plain listing with color codes inserted.", "quantifier": "all texts over all code points, all number parsers, all opcode colors", "why_tests_cant": "All texts, including malformed ones.", "anchors": ["crates/revmc-codegen/src/bytecode/asm.rs: Tokenizer (40-231)", "crates/revmc-codegen/src/bytecode/fmt.rs: colorize (216-251)", "crates/revmc-codegen/src/bytecode/opcode.rs: Display for Opcode (173-184)"]}
{"id": "C58", "title": "Assembler macros expand as defined", "statement": "Preprocessing an assembly text succeeds with a token sequence exactly if its lines are definitions of the form `#define NAME body` or `#define NAME(p, ...) body` and other text, and replacing the macro invocations in the other text gives that sequence: a name by its body, an invocation (with arguments separated by the commas outside nested parentheses, as many as there are parameters) by the body with every parameter replaced by its argument, everything else unchanged. Malformed definitions and invocations are rejected, text without macro names is unchanged, and after preprocessing no macro name is left. What assembles decodes to exactly the program that the expanded text spells.", "quantifier": "all texts, all macro tables, all token sequences, any nesting of parentheses", "why_tests_cant": "All texts and macro definitions; nested parentheses of any depth.", "anchors": ["crates/revmc-codegen/src/bytecode/asm.rs: parse_asm (34-38), preprocess, parse_define, expand_macros (233-438), parse_items"]}
{"id": "C59", "title": "The attributes declared for the builtins are true", "statement": "What the compiler tells LLVM about each builtin holds in every execution of the builtin: the stack words it touches lie within the declared size, a stack pointer declared read-only is not written through, one declared write-only and initialized is written before the builtin returns and nothing the caller left there is read, a context declared read-only is not written, a builtin declared not to return never does, one declared to access only memory behind its arguments accesses nothing else, and none frees memory. The declared parameters are those of the Rust function, the declared sizes are those of its references, and at every call site the declared words lie inside the EVM stack.", "quantifier": "all 48 builtins, all arguments, all stack contents, all answers of the context, the host and the memory", "why_tests_cant": "LLVM may use a false attribute or not, depending on version and surrounding code; a test sees one compilation and one execution, and early exits and reallocations are rare.", "anchors": ["crates/revmc-builtins/src/ir.rs: Builtins::add_attrs (69-106), op (184-210), param_attrs (222-271), the table (273-322)", "crates/revmc-builtins/src/lib.rs: all builtins (112-896)", "crates/revmc-codegen/src/compiler/translate/mod.rs: sp_after_inputs, sp_at_top (1509-1550)", "crates/revmc-codegen/src/compiler/translate/peephole.rs: pay_exp_dynamic_gas, peephole_load, peephole_keccak256 (250-316)"]}
{"id": "C60", "title": "The trampolines bring the caller back intact", "statement": "Calling compiled code through revmc_entry enters it by a correct ABI call with the same context, stack and length pointer and an aligned stack. However it ends - by returning, or by a builtin calling revmc_exit from any depth, with any register contents and any stack pointer - control returns to the caller of revmc_entry with the stack pointer and every callee-saved register as at the call, and with the result: that of the code, or the exit_result stored in the context. Memory outside the frame of the trampoline and the exit_sp field is not touched.", "quantifier": "all register and memory contents, all stack and context addresses, all behaviours of the compiled code that leave the caller's frames and exit_sp alone; System V AMD64 and AAPCS64", "why_tests_cant": "A register restored wrongly shows only if the caller keeps a live value in it at that moment; tests see the allocation of one build, and only the architecture they run on.", "anchors": ["crates/revmc-context/src/arch/x86_64.rs: revmc_entry, revmc_exit", "crates/revmc-context/src/arch/aarch64.rs: revmc_entry, revmc_exit", "crates/revmc-context/src/arch/mod.rs: EXIT_RESULT_OFFSET, EXIT_SP_OFFSET"]}
{"id": "C61", "title": "Builtins in the process-wide JIT are defined once and are there when code is linked", "statement": "All compilers of a process share one JIT with one JITDylib for the builtins. Whatever the threads do, each builtin is defined at most once, no definition is refused as a duplicate, its address is one that was asked for and never changes, and JITDylibs get distinct names. Code that is linked after define_builtins has returned finds every builtin it asked for.", "quantifier": "all interleavings of any number of threads, all lists of requested symbols (repetitions included), all failures of ORC definitions", "why_tests_cant": "The set of defined names is updated before the definitions are made, and the window between them is a few instructions wide; a test hits an interleaving inside it only by luck, and failures of ORC cannot be provoked from outside.", "anchors": ["crates/revmc-llvm/src/lib.rs: GlobalOrcJit::define_builtins", "crates/revmc-llvm/src/lib.rs: GlobalOrcJit::create_jit_dylib", "crates/revmc-llvm/src/lib.rs: link_jit_object_in_dylib, commit_staged_module"]}
{"id": "C62", "title": "Debug lines point at the instruction they belong to", "statement": "The line number recorded for each live instruction is the number of the line of bytecode.txt that shows this instruction (its opcode, ic= and pc=); dead instructions get no line, different instructions different lines, and the annotation of a dump with such a number is that line, trimmed. Constants abbreviated in the graph stand for one constant only.", "quantifier": "all bytecodes (any blocks, dead instructions, opcode texts without line ends), all instruction texts", "why_tests_cant": "Line numbers depend on blank lines, headers and skipped instructions before them, so an error shows only for certain shapes of the control flow graph; tests look at a few fixed listings.", "anchors": ["crates/revmc-codegen/src/bytecode/fmt.rs: collect_lines, display_plain, abbreviate_hex", "crates/revmc-codegen/src/bytecode/mod.rs: take_inst_lines", "crates/revmc-codegen/src/compiler/mod.rs: resolve_dbg_line"]}
{"id": "C63", "title": "The JIT helper runs under its limits and is killed with everything it started", "statement": "A helper process that starts is in a process group of its own, has the configured address space limit as soft and hard limit, and may run on min(configured, available) CPUs, all of them available before; a limit of zero changes nothing. It is refused exactly if a system call it needs fails or no CPU is available, and the count never underflows. Killing the helper ends it and every process it has started, directly or not, and no other process.", "quantifier": "all limits, all CPU masks of any size, all answers of the system calls, all sequences of forks and exits", "why_tests_cant": "The mask, the limits and failing system calls are properties of the machine the test runs on; processes left behind by a crashed helper do not show in the result of any test.", "anchors": ["crates/revmc-runtime/src/runtime/out_of_process.rs: apply_helper_limits, limit_cpu_affinity, set_rlimit, set_process_group", "crates/revmc-runtime/src/runtime/out_of_process.rs: kill_helper, HelperProcessInner::kill"]}
