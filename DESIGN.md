# Formal model of revmc: design

Target: `paradigmxyz/revmc` (source in /repo, read as text only). Technique: theorems in Rocq
(Coq 8.16.1) about executable Gallina models of revmc's own functions.

## Layout

`rocq/theories/`

* `<Area>Model.v`  — the model: total computable functions, each citing file and lines in /repo.
* `<Area>Spec.v`   — where needed, an independent specification (EVM semantics, abstract map, ...).
* `<Area>Proof.v`  — lemmas.
* `<Area>Props.v`  — property theorems only, each `exact lemma` + `Print Assumptions`, plus
  `Example`s showing that the hypotheses are met by a concrete non-trivial case.

## Plan per property

| id | modelled | how proved |
|----|----------|-----------|
| C01 | `OpcodesIter`, `OpcodesIterWithPc` over byte lists and any opcode table | induction over the code |
| C02 | the parse loop of `Bytecode::new_mono` (jumpdest bitset, rewind) vs the EVM jumpdest scan | simulation; refuted for AMSTERDAM (finding F3), proved when DUPN/SWAPN/EXCHANGE are not enabled or have no PUSH-valued immediate |
| C03 | decode/encode functions | sweep of all 256 bytes lifted by `forallb_forall`; arithmetic for out-of-range operands |
| C04 | `U256Imm`, `Interner` | invariant over operation sequences |
| C05 | `try_const_fold` on Z words, vs EVM arithmetic on Z | arithmetic per opcode |
| C06 | `const_fold_gas`, EXP builtin gas | arithmetic |
| C07 | gas section construction + charging vs per-instruction charging; the control-flow discipline it needs, for every analysed bytecode (`SectionFlow.v`) | induction over traces; liveness invariant of the analysis and of deduplication |
| C08 | stack section analysis + `check_stack_bounds` vs per-instruction check | induction |
| C09 | saturating section summary | refuted (finding F4), proved below the saturation bounds |
| C10 | `memory_sections.rs`, `const_memory_accesses`, `build_ensure_memory` with its three paths (MemSec*.v); analysis without deduplication | invariant of the worklist loop, then induction on executions; termination by a measure; refuted for LOG1-LOG4 with known topics (finding F18) |
| C11 | dead code marking vs reference small-step semantics | invariant over executions |
| C12, C13, C14, C15 | block analysis abstract interpreter vs reference semantics | abstract interpretation soundness; refuted for stacks deeper than 64 (finding F2) |
| C16, C17 | dedup fingerprint, grouping, redirects | C16: refuted (finding F1); equal instruction by instruction when no long PUSH handle has a zero low byte. C17: invariant over merges, rounds and refreshes (redirects go strictly down, no chain left, termination, order independence); liveness of the targets of all edges from live instructions: an invariant of the two analysis phases (targets of live jumps are live; what the first phase commits the second one cannot commit differently) and of the merging rounds (`DedupBase`, `SimProof`, `DedupStart`, `DedupLive`) |
| C18 | `dead_store_elim` (both walks, bit vectors, marks) vs the EVM running the block with every instruction executed; compiled side is the C19 virtual-stack model with marked instructions skipped | backward liveness simulation; refuted for snapshots cut short (finding F16) |
| C19 | `VStack` and users vs plain list stack | refinement by induction over operations |
| C20, C21, C22, C23 | lowering expressions over Z mod 2^256 | arithmetic |
| C24 | the dynamic jump table over live JUMPDESTs of the analysed (deduplicated) program | invariant through every pass: no JUMPDEST dies while an unresolved jump remains |
| C25 | resume table emission, resume switch, suspend block, stack copies, the caller's loop; instruction bodies and host are oracles | table by induction over the instructions; loop equals the uninterrupted execution by induction both ways |
| C26 | `EvmCompiler` with the LLVM backend's JIT state (`LifeModel`): module, staged and committed functions, names, trackers, JITDylib; external steps succeed or fail arbitrarily | invariant over all call sequences; after `clear` a simulation with a new instance; wrong code after an unhandled failure refuted (F19) |
| C27–C34, C36 | backend thread as a state machine with nondeterministic environment | invariants over all histories; C29, C32 refuted after a clear |
| C35, C40, C49 | `HelperModel`: callers of pause/resume (depth counter, then command), command queue, backend thread, workers in `HelperProcess::compile`, reader threads, helper processes with pipes, SIGSTOP and death, a clock; one atomic action per step, all interleavings | four invariants over all histories (calls and queue; helper obeys the flag; ids, pending maps, requests and responses; slot lock); C49 by tracing an outcome back to its expiry; C35 and the strong reading of C49 refuted (F7, F20) |
| C37 | `ArtifactModel`: `storage.rs` (`artifact_path`, `store`, `load`, `load_all`, `delete`, `clear`) over a small file system with directory entries, inodes and per-write failures; strings are Coq strings | `ArtifactProof`: the manifest list refines "latest operation per key"; `artifact_path` is injective on well-formed keys; content clause refuted after a failed overwrite (F21) |
| C38 | `HoldModel`, run alongside `RuntimeModel`: reference-counted program objects, JIT memory or library mapped from an inode, directory of the store, in-place writes, references held by callers (ghost: the program as handed out) | `HoldProof`: every step is a sequence of eight kinds of effects; invariants: counts = references, kinds match, (quiet histories) mapped files are in the index and complete; `RuntimeInv8`: without clears and failing loads no AOT job is in flight for a persisted key. Refuted with a clear or a failing load (F8) |
| C39 | `ArtifactModel.load_artifact`, `preload_loop`, `preload_aot` (runtime/mod.rs, artifact loading) with an arbitrary dynamic linker | induction over the artifact list; optimization-level clause refuted (F9) |
| C41 | `helper_init`, `runtime_config_from_init`, gas pairs, job requests, `create_compiler`, `compile_with_state` with its thread-local compilers (`ConfigModel`) | round trips; pigeonhole for the gas table; invariant over the jobs of a thread |
| C42, C43 | `parse_items`, `layout_and_emit`, `encode_imm`, `min_push_width` from tokens on, vs a statement language and the C01 decoder | widths grow and are bounded (termination); emission and decoding by induction over statements; label map = prefix sums |
| C44 | `EvmWord` conversions on both byte orders | positional notation, arithmetic |
| C45 | CALLDATACOPY, CODECOPY, EXTCODECOPY, RETURNDATACOPY, MCOPY, CALLDATALOAD, KECCAK256, LOG, RETURN builtins over byte memories, vs the EVM's (unbounded integers, one total price) | refinement lemma per memory primitive, composed |
| C46 | BLOCKHASH builtin | arithmetic; refuted above 2^64 (finding F17) |
| C47 | CALL family and CREATE builtins up to the frame inputs they hand over | composition of `spend` steps |
| C48 | `make_map` bit by bit, availability by EIP as specification; failing instructions kept apart from other failures in the section machine of C07 | both loops by induction; an unavailable opcode behaves as a STOP with its own result, then C07 |
| C50 | `BlockModel` (`fold_inst`, `interp_block`, fixpoint, local phase), `DedupModel`; the EVM's prices as a separate table | per instruction, then per block against the recorded snapshots, then the whole analysis as a chain of block interpretations (at most 9 per instruction); limit 0 by an invariant on the snapshots |
| C51 | `RevmSpec` (revm's frames, loop and handler, functions outside /repo as parameters), `EvmModel`: both `JitEvm`s, `call_with_interpreter`, all entry points; the backend is an arbitrary stream of answers, compiled functions and the interpreter are arbitrary subject to `faithful` (they agree when entered anew or at an index the function gave itself; cf. C25) | simulation, frame by frame: a code hash is tied to an engine at its first lookup and ties only grow during a transaction |
| C52 | `ConfigModel.compile_with_state` (compiler slot of one thread with its compilation count); fold over job lists in `ConfigSpec.held` | induction over jobs: the count is the number of compilations modulo the threshold; window argument for creation failures |
| C53 | `HostModel` (the builtins that use the host, over an arbitrary record of host functions on arbitrary worlds; [run_op] for all of them); `HostSpec.exec`: call trees of frames, gas and memory arbitrary between builtins | every builtin keeps `obs` in a static frame (composition lemmas), a started frame is static and moves nothing; induction over executions. Assumed of revm's journal: loads and transfers of nothing or to oneself keep `obs`, a revert restores it |
| C54 | same model; reference: load without skipping, then pay (`priced`, `stored`, `destroyed`) | case analysis on skipped/cold/affordable. Assumed: the host skips only cold items (`skips`), cold prices include the surcharge (`schedule`); `on_log` and `load_code` not modelled |
| C55 | `MemBaseModel`: `cached_mem_base` through the translation loop (reset at section heads, `build_ensure_memory`, `call_builtin`), on top of the analysis, dead store elimination, sections and memory sections; values named by the instruction that loaded them. `MemBaseSpec`: memory may move when it grows and while other frames run | invariant along executions: inside a section the cached value is where memory is; skipped checks do not grow memory (C10), memory instructions are never folded or no-ops, jump targets and successors of CALL/CREATE are section heads (C07). Deduplication off; refuted for LOG1-LOG4 with small constant topics (F23) |
| C56 | `WholeModel`: the emitted function as a machine over basic blocks, each block run by the virtual-stack machine of C09 with the stack-bounds checks at section heads (`krun`), left by `JumpModel.lower_jump` or by falling through to `effective_next_entry`, on top of loading, analysis, dead store elimination and sections. `WholeSpec`: the meaning each instruction must have (stack shuffles and constants concrete, other instructions and final states arbitrary functions), what a correct translation is, how EVM executions (`FlowSpec.evm_step`) end | simulation, one block at a time: facts promised by the snapshots hold at every reached instruction (C12, C13), blocks compute as the EVM does (C09), jumps lead where the EVM goes (C12, C17), blocks are entered at their start (C11); sections are exact, so a check that passes covers every instruction of its section and one that fails means that the EVM does not leave the section alive; both directions, executions of any length. Partial: deduplication off, at most 10879 bytes (F4), shallow (F2), aligned snapshots (F16), no gas |
| C57 | `TokModel`: the tokenizer on lists of code points, `colorize`, `Display for Opcode`; number parsing (ruint) and opcode colors are parameters. `TokSpec`: the lexical grammar with longest match (`lexeme`, `lexes`), texts with color codes inserted (`decorated`) | `next` is sound and complete for `lexeme`, hence the tokenizer for `lexes`, by induction; the spelling of each token is the text it was read from. Refuted for the colored listing of unknown opcodes (F24) |
| C58 | `TokModel`: `preprocess`, `parse_define`, `expand_macros` (hash map as association list), `AsmTextModel`: `parse_asm`, composing them with `AsmModel`. `TokSpec`: lines, definitions, balanced arguments, instances of bodies, `expands` as relations | read_args is exact for balanced arguments (strong induction on the tokens, any depth); each function is equivalent to its relation; composed with C43 for the whole text. Nested macros refuted (F25) |
| C59 | `AttrModel`: the table of builtins with the attributes of functions and parameters (`op`, `param_attrs`, `add_attrs`), the Rust signatures, and each body as a tree of memory accesses (stack words, context fields, memory behind loaded pointers, reallocation) with arbitrary answers. Values, `Align`, `Cold` and calling conventions are not modelled. `AttrSpec`: what the attributes promise about a run | conditions on all paths of a body (`sat`, `fills`) imply the promises of every run; checked body by body, the topics of LOG by induction |
| C60 | `TrampModel`: byte memory with little-endian words, the x86-64 and AArch64 instructions the trampolines use, `revmc_entry` and `revmc_exit` as instruction lists, and a call as: entry, an arbitrary function from states to states for the compiled code (it returns or leaves through `revmc_exit`), and the way back. The Windows ABI, flags, control words (MXCSR, x87, FPCR) and the high halves of vector registers are not modelled; the field offsets are parameters inside the context. `TrampSpec`: what System V AMD64 and AAPCS64 promise a caller. | By executing the instruction lists symbolically: the saved words are read back unchanged (`C60_x86_entry`, `C60_x86`, `C60_aarch64_entry`, `C60_aarch64`). Hypotheses on the code: it leaves alone the frame above its own and `exit_sp`, and if it returns it keeps the ABI. |
| C61 | `DefModel`: the state of `GlobalOrcJit` (names marked as defined, symbols of the builtins JITDylib, JITDylib names) and any number of threads, a step being what happens under the lock (`Start`), the definition after it (`Define`, which may fail), linking, and creating a JITDylib. Names are numbers; the process-symbol generator finds no builtin. `DefSpec`: what was asked for, threads that do not overlap | invariant over all traces: marked names are exactly those defined, failed or pending in one thread, pending names are disjoint. Partial: links succeed if no other thread is between lock and definition and none failed (`C61_sequential_partial`, `C61_quiet`), refuted otherwise (F29) |
| C62 | `ListModel`: `collect_lines` with the map from instructions to lines, `display_plain`, the lookup at the end of `resolve_dbg_line`, `abbreviate_hex`, on lists of ASCII characters; `str::lines` and `str::trim` from their documentation. Headers, opcode texts and the flags at the end of a comment are parameters (any text without line ends); the parsing of LLVM's dumps is not modelled. `ListSpec`: what it means that a line shows an instruction | invariant over blocks and instructions: recorded numbers point into the lines collected so far and are distinct; splitting the printed text gives back the lines; abbreviations are cut at the first dot |
| C63 | `HlimModel`: the closure run before the helper is executed (process group, address space limit, CPU mask) with arbitrary success of the system calls; a table of processes and groups with forks and exits; `kill_helper`, `HelperProcessInner::kill`. Waiting for the end, other signals, systems other than Linux are not modelled. `HlimSpec`: counting CPUs, the family of a process, fresh process ids | induction over the mask; invariant over traces: the group is the family. Partial: a helper that has exited by itself leaves its family behind (F30) |

## Trusted base

* Coq's kernel (8.16.1), `vm_compute` included.
* For each theorem, exactly what `Print Assumptions` reports (see the table at the end, kept current).
* The reading of /repo: each definition cites the lines it models and says where it simplifies.
* Not modelled: LLVM (IR building is modelled as the arithmetic it denotes), machine code, the
  ORC linker, OS processes and signals, wall-clock time (replaced by nondeterminism), revm's
  interpreter and host (their parts appear as specifications or oracles), hash collisions.

## Findings (the unchanged code violates the property)

* F1 (C16): block fingerprints are not length-delimited; different blocks can collide.
* F2 (C13): abstract stacks are cut to 64 entries and a block popping deeper is then treated as
  unreachable, so constants at its successors are claimed without it.
* F3 (C02): with EIP-8024 opcodes enabled, immediates with PUSH values shift the jumpdest scan.
* F4 (C09): stack-section summaries saturate at 65535 / 32767; dead store elimination sizes its tables from them and indexes out of range. Witness: 10923 LOG4 and one DUP1, a contract the runtime compiles by default (`C09_refuted`); exact and panic-free up to 10879 bytes (`C09_contracts_partial`).
* F5 (C29, C30): a stale worker result removes the entry of the *new* generation.
* F6 (C32): stale results are never counted, so the pending_jobs statistic drifts upwards forever.
* F7 (C35): depth counter and command are not updated atomically, and commands can be dropped. A resume dropped by a full queue leaves the helper stopped although no caller has it paused (`C35_lost_resume_refuted`; jobs then wait forever, since a paused job does not time out); a resume command overtaken by the next pause leaves it running although a caller has it paused (`C35_late_resume_refuted`); a pause before the backend is enabled is forgotten (`C35_early_pause_refuted`).
* F8 (C38): re-storing an artifact overwrites in place a file that may be mapped (`C38_overwritten_refuted`: after a
  clear, with no I/O failure; `C38_truncated_refuted`: without clears, after one failing load).
* F9 (C39): preload ignores optimization level and backend of the artifact key (`C39_identity_refuted`).
* F10 (C03): `encode_pair` returns `None` for every EXCHANGE pair with m > 16, so the assembler
  refuses instructions the decoder produces (e.g. byte 7 = EXCHANGE 9 21).
* F11 (C07): a gas section's static cost is kept in a saturating `u32`; when it exceeds 2^32-1
  (custom gas schedule with a large EXP byte price) the section is undercharged.
* F12 (C22): with more than about 2^60 gas left, an MLOAD/MSTORE/MSTORE8 at an offset of 2^63 or more is
  clamped and then *passes* the saturating memory price, so the frame tries to grow its memory to
  2^63 bytes where the EVM stops with out-of-gas.
* F13 (C29, C30): a key can become resident (from the store, by `prepare_aot`) while it is being
  compiled; evicting it removes the record of the running compilation, so a second one of the same key
  and generation can start and the callers that joined the first are dropped.
* F14 (C36): a blocking lookup that has to compile counts both a miss and a hit.
* F16 (C18): when the abstract stack was cut to 64 entries an operand snapshot can be shorter than the
  operand list; dead store elimination then pairs snapshot entries with the wrong operands and skips an
  instruction whose value is used.
* F17 (C46): BLOCKHASH saturates the requested number to 64 bits, so for block numbers above 2^64 the host
  is asked for block 2^64-1 instead of the requested one.
* F18 (C10): `const_memory_accesses` reads the memory operands of LOG1-LOG4 at depths n and n+1 instead of 0 and
  1, i.e. takes the last two topics for offset and length. With two small constant topics the analysis believes
  in memory that does not exist and leaves out the check of a later MLOAD/MSTORE (`C10_skip_refuted`); the
  compiled code then accesses memory beyond its end. The positive theorems assume the last topic is unknown or
  at least 2^64 (`topics_unknown`), as event signatures and hashes are.
* F23 (C55): a consequence of F18. A LOG1-LOG4 whose last two topics are small constants is taken for an access that
  cannot grow memory, so `call_builtin` keeps the cached pointer although the builtin grows (and may move) memory:
  the next MLOAD or MSTORE goes through a dangling pointer (`C55_base_refuted`).
* F24 (C57): the colored bytecode listing drops parentheses (and `$name`) outside comments. Unknown opcodes are listed
  as `UNKNOWN(0x0c)`, so on a terminal they read `UNKNOWN0x0c` (`C57_unknown_opcodes`, `C57_colors_refuted`).
* F25 (C58): assembler macros are documented as C-style, but bodies and arguments are not expanded again: a macro used
  in another macro's body is left as a name, which is then rejected as an invalid opcode, or taken for the opcode if
  the macro is named like one (`C58_nested_refuted`).
* F26 (C59): `ArgMemOnly` (no memory access except behind the arguments) is declared for the fourteen builtins with a
  read-only context, such as ORIGIN and CALLDATALOAD. All of them read through pointers loaded from the context
  (`ecx.host`, `ecx.input`), which the comment in `add_attrs` excludes (`C59_argmem_refuted`). What they read does not
  change during a frame, so no wrong code is known to follow.
* F27 (C59): `NoFree` is declared for every builtin, but growing the memory may reallocate its buffer
  (`C59_nofree_refuted`).
* F28 (C59): `sload_c` reads back the key it has stored in its write-only output word (`C59_writeonly_refuted`); nothing
  the caller left there is read (`C59_overwritten`).
* F29 (C61): `define_builtins` marks the names as defined under the lock, releases it, and only then defines them. A
  second thread that asks for the same names meanwhile skips them and may link before they exist, so its lookup fails
  (`C61_race_refuted`). If the definition fails, only a message is logged and the names stay marked: they are never
  defined in this process (`C61_lost`, `C61_retry_refuted`).
* F30 (C63): `HelperProcessInner::kill` sends nothing if the helper has exited already, so processes a crashed helper has
  started keep running (`C63_orphans_refuted`), although the helper was put in a group of its own and the signal to the
  group would reach them (`C63_group`).
* F19 (C26): when adding a module to the JIT fails (e.g. a symbol of that name is still defined), the module is
  already gone but its functions stay staged. Asking again commits an empty module and the lookup by name returns
  the *old* definition (`C26_stale_code_refuted`); freeing the function instead uses a freed LLVM value
  (`C26_dangling_refuted`). In the runtime a symbol is named after code hash and hardfork, so recompiling an
  evicted program somebody still holds runs into the failing commit; the worker clears the IR after it.
* F22 (C51): the `JitEvm` of revmc-context asks its miss handler again each time a frame is resumed. A handler that
  compiles in the background (none at first, a function later) makes a frame change engines in the middle, and the
  interpreter's program counter is then taken for a resume index: calls are skipped, or the function panics
  (`C51_generic_refuted`). The runtime's `JitEvm` caches its decisions and is not affected (`C51_runtime`).
* F21 (C37): `store` writes the artifact file in place before the manifest. When that write fails half-way over an
  older artifact of the same key, the old manifest stays and names a file with other contents; `load` never checks
  `content_hash` (`C37_damaged_refuted`).
* F20 (C49): the timeout clock keeps running during a pause; only the flag at expiry is looked at. A helper stopped
  for the whole period and resumed just before its end loses the job (and is killed) although it did not run at all
  (`C49_running_time_refuted`).

## Assumptions of each theorem

`Print Assumptions` of every theorem below answers "Closed under the global context": no axioms, not even of the
standard library. (The command stands after each theorem in its file.)

| property | status | theorems | file |
|---|---|---|---|
| C01 | proved | `C01_decode_partition` | OpcodeProps.v |
| C02 | partial | `C02_jumpdests_partial`, `C02_jumpdests_before_eip8024`, `C02_jumpdests_refuted` | OpcodeProps.v |
| C03 | partial | `C03_single_operand`, `C03_exchange_decode`, `C03_exchange_encode_partial`, `C03_exchange_roundtrip_refuted` | OpcodeProps.v |
| C04 | proved | `C04_handles_recover`, `C04_push_constants` | OpcodeProps.v |
| C05 | proved | `C05_const_fold`, `C05_const_fold_total` | ArithProps.v |
| C06 | proved | `C06_exp_gas` | ArithProps.v |
| C07 | partial | `C07_contracts` | SectionFlowProps.v |
| C07 | partial | `C07_sections_unobservable`, `C07_saturation_refuted` | SectionsProps.v |
| C08 | proved | `C08_section_check`, `C07_sections_unobservable` | SectionsProps.v |
| C08 | proved | `C07_contracts` | SectionFlowProps.v |
| C09 | partial | `C09_summary_exact`, `C09_contracts_partial`, `C09_refuted` | SummaryProps.v |
| C10 | partial | `C10_skip_partial`, `C10_direct_partial`, `C10_access_partial`, `C10_total`, `C10_skip_refuted` | MemSecProps.v |
| C11 | partial | `C11_dead_code_partial`, `C11_dead_code_local`, `C11_dead_code_refuted` | BlockProps.v |
| C12 | partial | `C12_jumps_partial`, `C12_jumps_local`, `C12_jumps_refuted` | BlockProps.v |
| C13 | partial | `C13_operand_partial`, `C13_output_partial`, `C13_operand_local`, `C13_output_local`, `C13_operand_refuted` | BlockProps.v |
| C14 | proved | `C14_value_join`, `C14_value_join_exact`, `C14_stack_join` | BlockProps.v |
| C15 | proved | `C15_total`, `C15_iterations`, `C15_discard` | BlockProps.v |
| C16 | partial | `C16_merged_blocks_partial`, `C16_merged_blocks_refuted` | DedupProps.v |
| C17 | proved | `C17_redirects`, `C17_live`, `C17_order` | DedupProps.v |
| C18 | partial | `C18_dead_stores_unobservable_partial`, `C18_marks_only_stack_instructions`, `C18_pass_total_partial`, `C18_dead_stores_unobservable_refuted` | DseProps.v |
| C18 | partial | `C18_contracts_partial` | SummaryProps.v |
| C19 | proved | `C19_virtual_stack_represents`, `C19_spill_exact` | VStackProps.v |
| C19 | proved | `C18_contracts_partial` | SummaryProps.v |
| C20 | proved | `C20_peephole` | ArithProps.v |
| C21 | proved | `C21_inline`, `C21_lowering` | ArithProps.v |
| C22 | partial | `C22_inline_access`, `C22_builtin_range`, `C22_large_gas_refuted` | GasMemProps.v |
| C23 | proved | `C23_reported_gas` | GasMemProps.v |
| C24 | proved | `C24_table`, `C24_evm`, `C24_unresolved` | TableProps.v |
| C25 | proved | `C25_indices`, `C25_resume`, `C25_next`, `C25_invalid` | ResumeProps.v |
| C26 | proved | `C26_no_add`, `C26_names`, `C26_own_code_partial`, `C26_no_dangling_partial`, `C26_handles_current`, `C26_panic_only`, `C26_usable_after_clear`, `C26_clear_like_new`, `C26_clear_stale`, `C26_stale_code_refuted`, `C26_dangling_refuted` | LifeProps.v |
| C27 | proved | `C27_lookup`, `C27_disabled` | RuntimeProps.v |
| C28 | proved | `C28_barrier`, `C28_all` | RuntimeProps.v |
| C29 | partial | `C29_one_in_flight_partial`, `C29_clear_refuted`, `C29_evict_refuted` | RuntimeProps.v |
| C30 | partial | `C30_exactly_once`, `C30_release_reason`, `C30_progress`, `C30_generation_partial`, `C30_no_loss_partial`, `C30_lost_refuted`, `C30_early_refuted` | RuntimeProps.v |
| C31 | proved | `C31_limits`, `C31_tracked` | RuntimeProps.v |
| C32 | partial | `C32_pending_partial`, `C32_lower_bound`, `C32_refuted` | RuntimeProps.v |
| C33 | proved | `C33_hot`, `C33_explicit` | RuntimeProps.v |
| C34 | proved | `C34_sweep`, `C34_keys` | RuntimeProps.v |
| C35 | partial | `C35_follows_flag`, `C35_balanced_partial`, `C35_nested_partial`, `C35_lost_resume_refuted`, `C35_late_resume_refuted`, `C35_early_pause_refuted` | HelperProps.v |
| C36 | partial | `C36_lookups`, `C36_sum`, `C36_blocking_refuted` | RuntimeProps.v |
| C37 | partial | `C37_load`, `C37_load_none`, `C37_content`, `C37_distinct`, `C37_removed`, `C37_load_all`, `C37_damaged_refuted` | ArtifactProps.v |
| C38 | partial | `C38_mapped`, `C38_jit`, `C38_intact_partial`, `C38_only_overwrite`, `C38_overwritten_refuted`, `C38_truncated_refuted` | HoldProps.v |
| C39 | partial | `C39_once`, `C39_first`, `C39_none_lost`, `C39_identity_partial`, `C39_preload_ok`, `C39_identity_refuted` | ArtifactProps.v |
| C40 | proved | `C40_own_response`, `C40_channel` | HelperProps.v |
| C41 | proved | `C41_gas_tables`, `C41_in_process`, `C41_helper`, `C41_rejects_init`, `C41_rejects_request` | ConfigProps.v |
| C42 | proved | `C42_layout_terminates`, `C42_label_addresses`, `C42_accepts` | AsmProps.v |
| C43 | proved | `C43_decodes_as_written` | AsmProps.v |
| C44 | proved | `C44_integers`, `C44_byte_strings`, `C44_slices`, `C44_addresses`, `C44_machine_integers` | WordProps.v |
| C45 | proved | `C45_copy`, `C45_extcodecopy`, `C45_returndatacopy`, `C45_mcopy`, `C45_calldataload`, `C45_keccak256`, `C45_log`, `C45_return` | BuiltinProps.v |
| C46 | partial | `C46_blockhash`, `C46_large_numbers_refuted` | BuiltinProps.v |
| C47 | proved | `C47_call`, `C47_context`, `C47_forward`, `C47_create` | BuiltinProps.v |
| C48 | proved | `C48_availability`, `C48_monotone`, `C48_parsed`, `C48_reasons` | InfoProps.v |
| C49 | proved | `C49_timeout`, `C49_paused`, `C49_final`, `C49_finishes`, `C49_running_time_refuted` | HelperProps.v |
| C50 | proved | `C50_evaluation`, `C50_block`, `C50_analysis`, `C50_exhausted` | BudgetProps.v |
| C51 | partial | `C51_runtime`, `C51_call`, `C51_generic_partial`, `C51_table`, `C51_generic_refuted` | EvmProps.v |
| C52 | proved | `C52_every`, `C52_window`, `C52_never` | ConfigProps.v |
| C53 | proved | `C53_static_frames`, `C53_staticcall`, `C53_eip214` | HostProps.v |
| C54 | proved | `C54_sload`, `C54_accounts`, `C54_sstore`, `C54_sentry`, `C54_selfdestruct` | HostProps.v |
| C55 | partial | `C55_base_partial`, `C55_base_refuted` | MemBaseProps.v |
| C56 | partial | `C56_follows_partial`, `C56_finishes_partial` | WholeProps.v |
| C57 | partial | `C57_tokens`, `C57_lossless`, `C57_colors_partial`, `C57_plain_colors_partial`, `C57_unknown_opcodes`, `C57_colors_refuted` | TokProps.v |
| C58 | partial | `C58_preprocess`, `C58_expand`, `C58_define`, `C58_unchanged`, `C58_no_names_partial`, `C58_nested_refuted` | TokProps.v |
| C58 | partial | `C58_assembled_text` | AsmTextProps.v |
| C59 | partial | `C59_stack_partial`, `C59_unchanged`, `C59_overwritten`, `C59_context`, `C59_noreturn`, `C59_returns`, `C59_argmem_declared`, `C59_argmem_partial`, `C59_dynamic`, `C59_signatures`, `C59_sites`, `C59_argmem_refuted`, `C59_nofree_refuted`, `C59_writeonly_refuted` | AttrProps.v |
| C60 | proved | `C60_x86_entry`, `C60_x86`, `C60_aarch64_entry`, `C60_aarch64` | TrampProps.v |
| C61 | partial | `C61_once`, `C61_entries`, `C61_link`, `C61_sequential_partial`, `C61_quiet`, `C61_lost`, `C61_race_refuted`, `C61_retry_refuted`, `C61_dylibs` | DefProps.v |
| C62 | proved | `C62_lines`, `C62_unlisted`, `C62_annotation`, `C62_abbreviated`, `C62_lossless` | ListProps.v |
| C63 | partial | `C63_limits`, `C63_refused`, `C63_group`, `C63_kill_partial`, `C63_orphans_refuted` | HlimProps.v |
