{
 "claims": [
  {
   "property": "C01",
   "status": "proved",
   "theorems": [
    "C01_decode_partition"
   ],
   "note": "all codes and opcode tables"
  },
  {
   "property": "C02",
   "status": "partial",
   "theorems": [
    "C02_jumpdests_partial",
    "C02_jumpdests_before_eip8024",
    "C02_jumpdests_refuted"
   ],
   "note": "equal to the EVM scan for all codes before EIP-8024 and, with it, when no enabled DUPN/SWAPN/EXCHANGE immediate is a PUSH byte; false otherwise (finding F3)"
  },
  {
   "property": "C03",
   "status": "partial",
   "theorems": [
    "C03_single_operand",
    "C03_exchange_decode",
    "C03_exchange_encode_partial",
    "C03_exchange_roundtrip_refuted"
   ],
   "note": "single operands and EXCHANGE decoding proved; EXCHANGE encoding fails for m > 16 (finding F10)"
  },
  {
   "property": "C04",
   "status": "proved",
   "theorems": [
    "C04_handles_recover",
    "C04_push_constants"
   ],
   "note": ""
  },
  {
   "property": "C05",
   "status": "proved",
   "theorems": [
    "C05_const_fold",
    "C05_const_fold_total"
   ],
   "note": ""
  },
  {
   "property": "C06",
   "status": "proved",
   "theorems": [
    "C06_exp_gas"
   ],
   "note": "exp_cost is any function"
  },
  {
   "property": "C07",
   "status": "partial",
   "theorems": [
    "C07_contracts",
    "C07_sections_unobservable",
    "C07_saturation_refuted"
   ],
   "note": "proved when every instruction costs at most 65535 static gas and the program has at most 65537 instructions (so the u32 section cost cannot saturate); false without (finding F11). C07_contracts: for every bytecode, with or without deduplication and dead store elimination, the control-flow discipline of the generic theorem is proved from the analysis; bodies only have to go along the edges of the analysed program"
  },
  {
   "property": "C08",
   "status": "proved",
   "theorems": [
    "C08_section_check",
    "C07_sections_unobservable",
    "C07_contracts"
   ],
   "note": ""
  },
  {
   "property": "C09",
   "status": "partial",
   "theorems": [
    "C09_summary_exact",
    "C09_contracts_partial",
    "C09_refuted"
   ],
   "note": "exact whenever the section fits the 16-bit fields (all lists); no panic and exact for all contracts up to 10879 bytes; false for larger compiled contracts (finding F4)"
  },
  {
   "property": "C10",
   "status": "partial",
   "theorems": [
    "C10_skip_partial",
    "C10_direct_partial",
    "C10_access_partial",
    "C10_total",
    "C10_skip_refuted"
   ],
   "note": "all contracts, executions and paths, for the block-local analysis and (shallow contracts) the global one; false for LOG1-LOG4 whose last topic is a known constant below 2^64 (finding F18, C10_skip_refuted); analysis after deduplication not covered"
  },
  {
   "property": "C11",
   "status": "partial",
   "theorems": [
    "C11_dead_code_partial",
    "C11_dead_code_local",
    "C11_dead_code_refuted"
   ],
   "note": "proved for executions whose stack stays within 64 words (all of the block-local analysis without that restriction); false above (finding F2)"
  },
  {
   "property": "C12",
   "status": "partial",
   "theorems": [
    "C12_jumps_partial",
    "C12_jumps_local",
    "C12_jumps_refuted"
   ],
   "note": "as C11 (finding F2)"
  },
  {
   "property": "C13",
   "status": "partial",
   "theorems": [
    "C13_operand_partial",
    "C13_output_partial",
    "C13_operand_local",
    "C13_output_local",
    "C13_operand_refuted"
   ],
   "note": "as C11 (finding F2)"
  },
  {
   "property": "C14",
   "status": "proved",
   "theorems": [
    "C14_value_join",
    "C14_value_join_exact",
    "C14_stack_join"
   ],
   "note": ""
  },
  {
   "property": "C15",
   "status": "proved",
   "theorems": [
    "C15_total",
    "C15_iterations",
    "C15_discard"
   ],
   "note": ""
  },
  {
   "property": "C16",
   "status": "partial",
   "theorems": [
    "C16_merged_blocks_partial",
    "C16_merged_blocks_refuted"
   ],
   "note": "fingerprints collide for PUSH3+ constants whose handle has a zero low byte (finding F1); proved for all other blocks of the first round; terminators other than JUMP: same operands and successors"
  },
  {
   "property": "C17",
   "status": "proved",
   "theorems": [
    "C17_redirects",
    "C17_live",
    "C17_order"
   ],
   "note": "termination, no panic, one hop, order independence; every edge from a live instruction leads to a live instruction that starts a block (or to the next instruction). Premise on the opcode tables: JUMPDEST exists in every hardfork, instructions evaluated at compile time leave at most one word"
  },
  {
   "property": "C18",
   "status": "partial",
   "theorems": [
    "C18_dead_stores_unobservable_partial",
    "C18_marks_only_stack_instructions",
    "C18_pass_total_partial",
    "C18_dead_stores_unobservable_refuted",
    "C18_contracts_partial"
   ],
   "note": "every block, every initial stack: same state, operands, ending and final stack, when snapshots are aligned with operands and the block effect fits the summary; false for snapshots cut short by the 64-entry abstract stack (finding F16); C18_contracts_partial states it from bytecode, with sections and summaries as computed by the passes"
  },
  {
   "property": "C19",
   "status": "proved",
   "theorems": [
    "C19_virtual_stack_represents",
    "C19_spill_exact",
    "C18_contracts_partial"
   ],
   "note": "Every line of instructions over any number of sections, every arm of translate_inst and the peepholes by what it does to the stack; the hypothesis that sections are large enough is what C08/C09 give (false only under saturation, finding F4). Values are words, not LLVM IR."
  },
  {
   "property": "C20",
   "status": "proved",
   "theorems": [
    "C20_peephole"
   ],
   "note": ""
  },
  {
   "property": "C21",
   "status": "proved",
   "theorems": [
    "C21_inline",
    "C21_lowering"
   ],
   "note": "LLVM poison/UB semantics of the used operations is part of the model"
  },
  {
   "property": "C22",
   "status": "partial",
   "theorems": [
    "C22_inline_access",
    "C22_builtin_range",
    "C22_large_gas_refuted"
   ],
   "note": "proved for frames whose total gas is below 2^55; false for absurd gas amounts (finding F12)"
  },
  {
   "property": "C23",
   "status": "proved",
   "theorems": [
    "C23_reported_gas"
   ],
   "note": ""
  },
  {
   "property": "C24",
   "status": "proved",
   "theorems": [
    "C24_table",
    "C24_evm",
    "C24_unresolved"
   ],
   "note": "all bytecodes, with and without deduplication (any group order), all 256-bit jump values; validity in C24_table is relative to the parser's JUMPDESTs, C24_evm is against the EVM analysis and inherits the hypotheses of C02 (finding F3)"
  },
  {
   "property": "C25",
   "status": "proved",
   "theorems": [
    "C25_indices",
    "C25_resume",
    "C25_next",
    "C25_invalid"
   ],
   "note": "all bytecodes, with and without deduplication, arbitrary instruction bodies, host, stack contents and number of suspensions; revm's frame code that pushes the result is external (modelled)"
  },
  {
   "property": "C26",
   "status": "proved",
   "theorems": [
    "C26_no_add",
    "C26_names",
    "C26_own_code_partial",
    "C26_no_dangling_partial",
    "C26_handles_current",
    "C26_panic_only",
    "C26_usable_after_clear",
    "C26_clear_like_new",
    "C26_clear_stale",
    "C26_stale_code_refuted",
    "C26_dangling_refuted"
   ],
   "note": "the stated claims hold for all call sequences; beyond them, addresses belong to the right code only if the caller clears after a failed jit_function (finding F19)"
  },
  {
   "property": "C27",
   "status": "proved",
   "theorems": [
    "C27_lookup",
    "C27_disabled"
   ],
   "note": ""
  },
  {
   "property": "C28",
   "status": "proved",
   "theorems": [
    "C28_barrier",
    "C28_all"
   ],
   "note": ""
  },
  {
   "property": "C29",
   "status": "partial",
   "theorems": [
    "C29_one_in_flight_partial",
    "C29_clear_refuted",
    "C29_evict_refuted"
   ],
   "note": "proved for histories without clears when no store is configured or eviction is off; false after a clear (finding F5) and after an eviction of a key being compiled (finding F13)"
  },
  {
   "property": "C30",
   "status": "partial",
   "theorems": [
    "C30_exactly_once",
    "C30_release_reason",
    "C30_progress",
    "C30_generation_partial",
    "C30_no_loss_partial",
    "C30_lost_refuted",
    "C30_early_refuted"
   ],
   "note": "exactly-once bookkeeping, reasons and progress proved for all histories; the generation clause and \"never dropped\" only without clears / evictions (findings F5, F13)"
  },
  {
   "property": "C31",
   "status": "proved",
   "theorems": [
    "C31_limits",
    "C31_tracked"
   ],
   "note": ""
  },
  {
   "property": "C32",
   "status": "partial",
   "theorems": [
    "C32_pending_partial",
    "C32_lower_bound",
    "C32_refuted"
   ],
   "note": "equality proved without clears, a lower bound always; false after a clear (finding F6)"
  },
  {
   "property": "C33",
   "status": "proved",
   "theorems": [
    "C33_hot",
    "C33_explicit"
   ],
   "note": ""
  },
  {
   "property": "C34",
   "status": "proved",
   "theorems": [
    "C34_sweep",
    "C34_keys"
   ],
   "note": ""
  },
  {
   "property": "C35",
   "status": "partial",
   "theorems": [
    "C35_follows_flag",
    "C35_balanced_partial",
    "C35_nested_partial",
    "C35_lost_resume_refuted",
    "C35_late_resume_refuted",
    "C35_early_pause_refuted"
   ],
   "note": "all interleavings of callers, backend, workers, readers and helpers; the helper always obeys the flag between commands; the claim about callers holds when no command was dropped (and, for nesting, no pause starts while a resume is on its way) and is false otherwise (finding F7)"
  },
  {
   "property": "C36",
   "status": "partial",
   "theorems": [
    "C36_lookups",
    "C36_sum",
    "C36_blocking_refuted"
   ],
   "note": "proved for non-blocking lookups; a blocking lookup that compiles is counted twice (finding F14)"
  },
  {
   "property": "C37",
   "status": "partial",
   "theorems": [
    "C37_load",
    "C37_load_none",
    "C37_content",
    "C37_distinct",
    "C37_removed",
    "C37_load_all",
    "C37_damaged_refuted"
   ],
   "note": "all sequences of store / delete / clear, with the manifest write failing or the artifact write failing half-way; the path of an artifact is computed and proved injective; false after a store that failed half-way over an existing artifact (finding F21): the old manifest then names a file with other contents and content_hash is never checked"
  },
  {
   "property": "C38",
   "status": "partial",
   "theorems": [
    "C38_mapped",
    "C38_jit",
    "C38_intact_partial",
    "C38_only_overwrite",
    "C38_overwritten_refuted",
    "C38_truncated_refuted"
   ],
   "note": "all histories: never unmapped while held, JIT code never overwritten, and only an AOT result written over the mapped file can change held code; AOT code intact in histories without clears and without failing loads; false otherwise (finding F8)"
  },
  {
   "property": "C39",
   "status": "partial",
   "theorems": [
    "C39_once",
    "C39_first",
    "C39_none_lost",
    "C39_identity_partial",
    "C39_preload_ok",
    "C39_identity_refuted"
   ],
   "note": "every list of artifacts in every order; the configured optimization level and backend are not compared (finding F9)"
  },
  {
   "property": "C40",
   "status": "proved",
   "theorems": [
    "C40_own_response",
    "C40_channel"
   ],
   "note": "all interleavings, restarts and disconnects; a correct helper answers each request with its own id (the helper side is modelled too)"
  },
  {
   "property": "C41",
   "status": "proved",
   "theorems": [
    "C41_gas_tables",
    "C41_in_process",
    "C41_helper",
    "C41_rejects_init",
    "C41_rejects_request"
   ],
   "note": "all configurations, gas tables, job sequences, compiler recycling and creation failures; wincode and SpecId::try_from_u8 are external (a message arrives as sent; the cast is inverted)"
  },
  {
   "property": "C42",
   "status": "proved",
   "theorems": [
    "C42_layout_terminates",
    "C42_label_addresses",
    "C42_accepts"
   ],
   "note": "Every token list; pushed value = position of the first instruction after the last definition of the label; the only hypothesis is that 33 * tokens < 2^64 (usize). Tokenizer and macro expansion are not modelled."
  },
  {
   "property": "C43",
   "status": "proved",
   "theorems": [
    "C43_decodes_as_written"
   ],
   "note": "Statement by statement, with DUP/SWAP past 16, EXCHANGE and label operands; decoded for any hardfork that has the opcodes used."
  },
  {
   "property": "C44",
   "status": "proved",
   "theorems": [
    "C44_integers",
    "C44_byte_strings",
    "C44_slices",
    "C44_addresses",
    "C44_machine_integers"
   ],
   "note": "all 256-bit values and byte strings, both byte orders of the host, 32- and 64-bit usize"
  },
  {
   "property": "C45",
   "status": "proved",
   "theorems": [
    "C45_copy",
    "C45_extcodecopy",
    "C45_returndatacopy",
    "C45_mcopy",
    "C45_calldataload",
    "C45_keccak256",
    "C45_log",
    "C45_return"
   ],
   "note": "all 256-bit operands, every data area shorter than 2^64 bytes (2^63 for return data), gas plus memory price below 2^55 (see finding F12 for more); revm memory and gas schedule are external: modelled as bytes with panicking bounds checks, arbitrary non-negative prices"
  },
  {
   "property": "C46",
   "status": "partial",
   "theorems": [
    "C46_blockhash",
    "C46_large_numbers_refuted"
   ],
   "note": "proved for block numbers up to 2^64; false above (finding F17): the requested number saturates"
  },
  {
   "property": "C47",
   "status": "proved",
   "theorems": [
    "C47_call",
    "C47_context",
    "C47_forward",
    "C47_create"
   ],
   "note": "all operands, gas below 2^55, every gas schedule with non-negative prices, every host answer; load_account_delegated and record_state_cost are external (oracle / modelled)"
  },
  {
   "property": "C48",
   "status": "proved",
   "theorems": [
    "C48_availability",
    "C48_monotone",
    "C48_parsed",
    "C48_reasons"
   ],
   "note": "all opcodes, hardforks, gas tables and programs; C48_reasons has the hypotheses of C07 (bodies, sections below 2^32 gas)"
  },
  {
   "property": "C49",
   "status": "proved",
   "theorems": [
    "C49_timeout",
    "C49_paused",
    "C49_final",
    "C49_finishes",
    "C49_running_time_refuted"
   ],
   "note": "the stated claims, for all interleavings; a stronger reading (a job fails only if its helper ran for a full period) is false: finding F20"
  },
  {
   "property": "C50",
   "status": "proved",
   "theorems": [
    "C50_evaluation",
    "C50_block",
    "C50_analysis",
    "C50_exhausted"
   ],
   "note": "all programs, environments and limits; the price list is the EVM's, written down separately; the budget bound is also given as a count of block interpretations and evaluations over the whole analysis"
  },
  {
   "property": "C51",
   "status": "partial",
   "theorems": [
    "C51_runtime",
    "C51_call",
    "C51_generic_partial",
    "C51_table",
    "C51_generic_refuted"
   ],
   "note": "proved for the runtime JitEvm (all uses, all backend answers over time) and for the generic JitEvm with a table of functions or a miss handler that keeps to its answers; false for a miss handler that does not (finding F22); revm itself and the compiled functions are parameters with stated assumptions; per-instruction inspector hooks are not modelled"
  },
  {
   "property": "C52",
   "status": "proved",
   "theorems": [
    "C52_every",
    "C52_window",
    "C52_never"
   ],
   "note": "all configurations, targets and job lists; creation failures are arbitrary booleans per job"
  },
  {
   "property": "C53",
   "status": "proved",
   "theorems": [
    "C53_static_frames",
    "C53_staticcall",
    "C53_eip214"
   ],
   "note": "all hosts with the two laws of revm's journal stated in HostSpec, all call trees; a concrete host meets the laws"
  },
  {
   "property": "C54",
   "status": "proved",
   "theorems": [
    "C54_sload",
    "C54_accounts",
    "C54_sstore",
    "C54_sentry",
    "C54_selfdestruct"
   ],
   "note": "all hosts that skip only cold items, all schedules whose cold prices include the surcharge; a concrete host and schedule meet them"
  },
  {
   "property": "C55",
   "status": "partial",
   "theorems": [
    "C55_base_partial",
    "C55_base_refuted"
   ],
   "note": "every bytecode and execution, with or without dead store elimination; missing: deduplication on, and LOG1-LOG4 with small constant topics, for which it is refuted (F23)"
  },
  {
   "property": "C56",
   "status": "partial",
   "theorems": [
    "C56_follows_partial",
    "C56_finishes_partial"
   ],
   "note": "every contract up to 10879 bytes, every execution, both directions; missing: deduplication on, gas, and the cases of findings F2, F4 and F16"
  },
  {
   "property": "C57",
   "status": "partial",
   "theorems": [
    "C57_tokens",
    "C57_lossless",
    "C57_colors_partial",
    "C57_plain_colors_partial",
    "C57_unknown_opcodes",
    "C57_colors_refuted"
   ],
   "note": "tokenizer: proved for every text; colored listing: proved for texts without parentheses and parameter references, refuted for unknown opcodes, whose parentheses are dropped (F24)"
  },
  {
   "property": "C58",
   "status": "partial",
   "theorems": [
    "C58_preprocess",
    "C58_expand",
    "C58_define",
    "C58_unchanged",
    "C58_assembled_text",
    "C58_no_names_partial",
    "C58_nested_refuted"
   ],
   "note": "everything proved for every text except that no macro name is left: refuted for macros used in the body of another (F25), proved when bodies use none and the macros take no arguments"
  },
  {
   "property": "C59",
   "status": "partial",
   "theorems": [
    "C59_stack_partial",
    "C59_unchanged",
    "C59_overwritten",
    "C59_context",
    "C59_noreturn",
    "C59_returns",
    "C59_argmem_declared",
    "C59_argmem_partial",
    "C59_dynamic",
    "C59_signatures",
    "C59_sites",
    "C59_argmem_refuted",
    "C59_nofree_refuted",
    "C59_writeonly_refuted"
   ],
   "note": "proved for all attributes of the stack pointer (writeonly read as: nothing the caller left is read) and of a read-only context, noreturn, and argmemonly of the arithmetic builtins; refuted: argmemonly of the builtins with a read-only context (F26), nofree (F27), the literal writeonly of sload_c (F28)"
  },
  {
   "property": "C60",
   "status": "proved",
   "theorems": [
    "C60_x86_entry",
    "C60_x86",
    "C60_aarch64_entry",
    "C60_aarch64"
   ],
   "note": "System V AMD64 and AAPCS64; the Windows ABI and the floating-point control words are not modelled; the compiled code is arbitrary but leaves the frames above it and exit_sp alone"
  },
  {
   "property": "C61",
   "status": "partial",
   "theorems": [
    "C61_once",
    "C61_entries",
    "C61_link",
    "C61_sequential_partial",
    "C61_quiet",
    "C61_lost",
    "C61_race_refuted",
    "C61_retry_refuted",
    "C61_dylibs"
   ],
   "note": "all interleavings; that linking finds every builtin is proved when no other thread is between the lock and its definition and no definition has failed, and refuted otherwise (F29)"
  },
  {
   "property": "C62",
   "status": "proved",
   "theorems": [
    "C62_lines",
    "C62_unlisted",
    "C62_annotation",
    "C62_abbreviated",
    "C62_lossless"
   ],
   "note": "all bytecodes whose blocks share no instruction; the texts of headers and opcodes are arbitrary without line ends; parsing of the dumps written by LLVM is not modelled"
  },
  {
   "property": "C63",
   "status": "partial",
   "theorems": [
    "C63_limits",
    "C63_refused",
    "C63_group",
    "C63_kill_partial",
    "C63_orphans_refuted"
   ],
   "note": "limits and refusals proved for all masks and answers of the system; killing proved while the helper is alive, refuted for a helper that has exited and left processes behind (F30)"
  }
 ]
}