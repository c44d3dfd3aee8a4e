{
 "claims": [
  {
   "property": "C01",
   "status": "proved",
   "theorems": [
    "C01_rounding",
    "C01_least",
    "C01_overflow"
   ],
   "note": ""
  },
  {
   "property": "C02",
   "status": "proved",
   "theorems": [
    "C02_size_classes"
   ],
   "note": ""
  },
  {
   "property": "C03",
   "status": "proved",
   "theorems": [
    "C03_decision"
   ],
   "note": ""
  },
  {
   "property": "C04",
   "status": "proved",
   "theorems": [
    "C04_failure_changes_nothing"
   ],
   "note": ""
  },
  {
   "property": "C05",
   "status": "proved",
   "theorems": [
    "C05_no_overlap"
   ],
   "note": ""
  },
  {
   "property": "C06",
   "status": "proved",
   "theorems": [
    "C06_contents",
    "C06_step",
    "C06_store"
   ],
   "note": ""
  },
  {
   "property": "C07",
   "status": "proved",
   "theorems": [
    "C07_arrays_zero"
   ],
   "note": ""
  },
  {
   "property": "C08",
   "status": "proved",
   "theorems": [
    "C08_header_address",
    "C08_inverse"
   ],
   "note": ""
  },
  {
   "property": "C09",
   "status": "proved",
   "theorems": [
    "C09_header_contents"
   ],
   "note": ""
  },
  {
   "property": "C10",
   "status": "proved",
   "theorems": [
    "C10_alignment",
    "C10_not_aligned_refuted"
   ],
   "note": "Word alignment proved for every history. The property as listed also says what does not hold (12-byte headers, 16-byte alignment); C10_not_aligned_refuted exhibits both."
  },
  {
   "property": "C11",
   "status": "proved",
   "theorems": [
    "C11_meta_word"
   ],
   "note": ""
  },
  {
   "property": "C12",
   "status": "proved",
   "theorems": [
    "C12_mask",
    "C12_empty_refuted"
   ],
   "note": "Proved for every non-empty payload; C12_empty_refuted shows the restriction is necessary."
  },
  {
   "property": "C13",
   "status": "proved",
   "theorems": [
    "C13_hole_search"
   ],
   "note": ""
  },
  {
   "property": "C14",
   "status": "proved",
   "theorems": [
    "C14_live_lines_safe"
   ],
   "note": ""
  },
  {
   "property": "C15",
   "status": "proved",
   "theorems": [
    "C15_first_fit"
   ],
   "note": ""
  },
  {
   "property": "C16",
   "status": "proved",
   "theorems": [
    "C16_fresh_capacity"
   ],
   "note": ""
  },
  {
   "property": "C17",
   "status": "proved",
   "theorems": [
    "C17_iff",
    "C17_line0_marked_partial",
    "C17_line0_unmarked_refuted"
   ],
   "note": "C17_iff: exact condition. C17_line0_marked_partial and C17_line0_unmarked_refuted are its two halves (the unconditional guarantee is false of the code)."
  },
  {
   "property": "C18",
   "status": "proved",
   "theorems": [
    "C18_block_new"
   ],
   "note": ""
  },
  {
   "property": "C19",
   "status": "proved",
   "theorems": [
    "C19_placement"
   ],
   "note": ""
  },
  {
   "property": "C20",
   "status": "proved",
   "theorems": [
    "C20_waste_bound",
    "C20_head_retired"
   ],
   "note": ""
  },
  {
   "property": "C21",
   "status": "proved",
   "theorems": [
    "C21_no_leak"
   ],
   "note": ""
  },
  {
   "property": "C22",
   "status": "proved",
   "theorems": [
    "C22_into_mut_ptr_refuted"
   ],
   "note": "C22_into_mut_ptr_refuted: for every block. The expected property is false of the code."
  },
  {
   "property": "C23",
   "status": "proved",
   "theorems": [
    "C23_value",
    "C23_short",
    "C23_unique",
    "C23_roundtrip"
   ],
   "note": ""
  },
  {
   "property": "C24",
   "status": "proved",
   "theorems": [
    "C24_functions",
    "C24_whole_read"
   ],
   "note": ""
  },
  {
   "property": "C25",
   "status": "proved",
   "theorems": [
    "C25_short_partial",
    "C25_short_unsigned_partial",
    "C25_long_refuted",
    "C25_iff"
   ],
   "note": "C25_iff: exact condition; the others are its halves (and the unsigned reader)."
  },
  {
   "property": "C26",
   "status": "proved",
   "theorems": [
    "C26_complete",
    "C26_short"
   ],
   "note": ""
  },
  {
   "property": "C27",
   "status": "proved",
   "theorems": [
    "C27_negative",
    "C27_nonnegative",
    "C27_result",
    "C27_accepted",
    "C27_log_grows",
    "C27_header"
   ],
   "note": ""
  },
  {
   "property": "C28",
   "status": "proved",
   "theorems": [
    "C28_iff",
    "C28_roundtrip_partial",
    "C28_long_refuted"
   ],
   "note": "C28_iff: exact condition; the others are its halves."
  },
  {
   "property": "C29",
   "status": "proved",
   "theorems": [
    "C29_strings",
    "C29_module",
    "C29_wellformed_kept",
    "C29_unique"
   ],
   "note": ""
  },
  {
   "property": "C30",
   "status": "proved",
   "theorems": [
    "C30_roundtrip",
    "C30_exact",
    "C30_invalid",
    "C30_arity"
   ],
   "note": ""
  },
  {
   "property": "C31",
   "status": "proved",
   "theorems": [
    "C31_iff",
    "C31_refuted",
    "C31_fixed_partial",
    "C31_module"
   ],
   "note": "C31_iff: exact condition; C31_refuted: what the list is otherwise; C31_module: in every accepted module."
  },
  {
   "property": "C32",
   "status": "proved",
   "theorems": [
    "C32_iff",
    "C32_roundtrip_partial",
    "C32_repeat_refuted",
    "C32_line_refuted"
   ],
   "note": "C32_iff: exact condition; C32_repeat_refuted, C32_line_refuted: what happens otherwise. (Exact meaning of every stream: C70.)"
  },
  {
   "property": "C33",
   "status": "proved",
   "theorems": [
    "C33_terminates",
    "C33_length"
   ],
   "note": ""
  },
  {
   "property": "C34",
   "status": "proved",
   "theorems": [
    "C34_entry",
    "C34_table"
   ],
   "note": ""
  },
  {
   "property": "C35",
   "status": "proved",
   "theorems": [
    "C35_iff",
    "C35_module_partial",
    "C35_module_refuted",
    "C35_backward_partial",
    "C35_forward_refuted"
   ],
   "note": "C35_iff: exact condition for every entry of every encoded module; the others are its halves."
  },
  {
   "property": "C36",
   "status": "proved",
   "theorems": [
    "C36_exact",
    "C36_earlier",
    "C36_iff",
    "C36_increasing_partial",
    "C36_order_refuted"
   ],
   "note": "False in general of the code. C36_exact: what every sequence of lookups yields; C36_iff: resolution is right at every moment iff the names other than the last of the table are first used in increasing order; C36_earlier: a wrong answer is always an earlier string looked up before. C36_increasing_partial and C36_order_refuted are the two plain cases."
  },
  {
   "property": "C37",
   "status": "proved",
   "theorems": [
    "C37_roundtrip",
    "C37_tables"
   ],
   "note": ""
  },
  {
   "property": "C38",
   "status": "proved",
   "theorems": [
    "C38_suffix"
   ],
   "note": ""
  },
  {
   "property": "C39",
   "status": "proved",
   "theorems": [
    "C39_truncation",
    "C39_encoding"
   ],
   "note": ""
  },
  {
   "property": "C40",
   "status": "proved",
   "theorems": [
    "C40_sizes",
    "C40_doubled"
   ],
   "note": ""
  },
  {
   "property": "C41",
   "status": "proved",
   "theorems": [
    "C41_magic",
    "C41_version",
    "C41_accepted"
   ],
   "note": ""
  },
  {
   "property": "C42",
   "status": "proved",
   "theorems": [
    "C42_refuted",
    "C42_sequence_partial",
    "C42_after",
    "C42_iff",
    "C42_header"
   ],
   "note": "C42_after: every file and every earlier error; C42_iff: valid files; C42_header: every file with a complete header; C42_sequence_partial: sequences without errors; C42_refuted: independence of history is false."
  },
  {
   "property": "C43",
   "status": "proved",
   "theorems": [
    "C43_accepted",
    "C43_kept"
   ],
   "note": ""
  },
  {
   "property": "C44",
   "status": "proved",
   "theorems": [
    "C44_refuted",
    "C44_counts_refuted",
    "C44_terminates",
    "C44_encoded",
    "C44_crash_iff"
   ],
   "note": "Termination proved for every input; panic-freedom refuted, with the exact set of inputs on which the reader crashes (C44_crash_iff): those that neither denote a module (C66) nor are refused (C84). Every proper header prefix and every file ending in its counts is one; no encoded well-formed module is."
  },
  {
   "property": "C45",
   "status": "proved",
   "theorems": [
    "C45_iff",
    "C45_lens_refuted",
    "C45_empty_refuted"
   ],
   "note": "C45_iff: every accepted file, exact condition, over the spelled tree of C66; C45_empty_refuted, C45_lens_refuted: what is lost."
  },
  {
   "property": "C46",
   "status": "proved",
   "theorems": [
    "C46_incremental",
    "C46_standard",
    "C46_range",
    "C46_burst",
    "C46_window"
   ],
   "note": "C46_standard: the value is the IEEE remainder (CrcSpec.v), and no other value is."
  },
  {
   "property": "C47",
   "status": "proved",
   "theorems": [
    "C47_shape",
    "C47_accepted",
    "C47_irrelevant",
    "C47_irrelevant_enum",
    "C47_field_name",
    "C47_field_type"
   ],
   "note": ""
  },
  {
   "property": "C48",
   "status": "proved",
   "theorems": [
    "C48_primitive_refuted",
    "C48_kind_refuted",
    "C48_signature_refuted"
   ],
   "note": "False of the code: the kind is not hashed. C48_primitive_refuted (every primitive kind hashes to 0), C48_kind_refuted (function/method, object/struct, ref/null collide for all contents), C48_signature_refuted (so do the hot-reload signatures)."
  },
  {
   "property": "C49",
   "status": "proved",
   "theorems": [
    "C49_lookup",
    "C49_inverse"
   ],
   "note": ""
  },
  {
   "property": "C50",
   "status": "proved",
   "theorems": [
    "C50_exact",
    "C50_panics",
    "C50_forward_refuted",
    "C50_no_global_refuted",
    "C50_no_functions_refuted"
   ],
   "note": "False in general of the code. C50_exact characterises the accepted modules on which hashing succeeds (hashable, HashSpec.v), C50_panics: every other one panics (failed lookup); three common reasons singled out as *_refuted."
  },
  {
   "property": "C51",
   "status": "proved",
   "theorems": [
    "C51_globals",
    "C51_constant",
    "C51_default",
    "C51_int_field"
   ],
   "note": ""
  },
  {
   "property": "C52",
   "status": "proved",
   "theorems": [
    "C52_finalize_refuted",
    "C52_overwrite_refuted",
    "C52_hashes"
   ],
   "note": "False of the code: finalize panics on every accepted module that alloc survives (C52_finalize_refuted); on any other structure where it returns, natives overwrite function signatures (C52_overwrite_refuted, exact contents of the table). C52_hashes: the function hashes such a run leaves, and that nothing else changes."
  },
  {
   "property": "C53",
   "status": "proved",
   "theorems": [
    "C53_init",
    "C53_hot_reload"
   ],
   "note": ""
  },
  {
   "property": "C54",
   "status": "proved",
   "theorems": [
    "C54_types",
    "C54_acyclic",
    "C54_globals"
   ],
   "note": ""
  },
  {
   "property": "C55",
   "status": "proved",
   "theorems": [
    "C55_functions"
   ],
   "note": ""
  },
  {
   "property": "C56",
   "status": "proved",
   "theorems": [
    "C56_debug"
   ],
   "note": ""
  },
  {
   "property": "C57",
   "status": "proved",
   "theorems": [
    "C57_order",
    "C57_sensitive"
   ],
   "note": ""
  },
  {
   "property": "C58",
   "status": "proved",
   "theorems": [
    "C58_exact",
    "C58_panics",
    "C58_order",
    "C58_sensitive",
    "C58_float_refuted"
   ],
   "note": "C58_exact (value, and success iff operands in range), C58_panics, C58_order (pools may be reordered), C58_sensitive (one changed operand word changes the hash); C58_float_refuted: the float lookup bug."
  },
  {
   "property": "C59",
   "status": "proved",
   "theorems": [
    "C59_alloc_refuted",
    "C59_native_refuted"
   ],
   "note": "False of the code: C59_alloc_refuted, C59_native_refuted give the general panics; functions without callee operands hash (C58_exact)."
  },
  {
   "property": "C60",
   "status": "proved",
   "theorems": [
    "C60_marks",
    "C60_panics"
   ],
   "note": ""
  },
  {
   "property": "C61",
   "status": "proved",
   "theorems": [
    "C61_pointers"
   ],
   "note": ""
  },
  {
   "property": "C62",
   "status": "proved",
   "theorems": [
    "C62_accounting",
    "C62_footprint",
    "C62_small"
   ],
   "note": ""
  },
  {
   "property": "C63",
   "status": "proved",
   "theorems": [
    "C63_errors",
    "C63_later",
    "C63_history"
   ],
   "note": "C63_errors (fresh process), C63_later, C63_history (any sequence of reads, crashed ones included). The vocabulary (ErrSpec.v) speaks only of the file's bytes."
  },
  {
   "property": "C64",
   "status": "proved",
   "theorems": [
    "C64_crashes",
    "C64_kinds"
   ],
   "note": "C64_crashes, C64_kinds."
  },
  {
   "property": "C65",
   "status": "proved",
   "theorems": [
    "C65_complete",
    "C65_short"
   ],
   "note": "C65_complete, C65_short: exact outcome of read_index on every input."
  },
  {
   "property": "C66",
   "status": "proved",
   "theorems": [
    "C66_exact",
    "C66_position"
   ],
   "note": "C66_exact (iff, both directions), C66_position. Grammar and meaning in GrammarSpec.v, free of decoder definitions."
  },
  {
   "property": "C67",
   "status": "proved",
   "theorems": [
    "C67_unambiguous",
    "C67_spelling"
   ],
   "note": "C67_unambiguous, C67_spelling."
  },
  {
   "property": "C68",
   "status": "proved",
   "theorems": [
    "C68_indices"
   ],
   "note": "C68_indices."
  },
  {
   "property": "C69",
   "status": "proved",
   "theorems": [
    "C69_types"
   ],
   "note": "C69_types; mean_type/resolve in GrammarSpec.v."
  },
  {
   "property": "C70",
   "status": "proved",
   "theorems": [
    "C70_functions"
   ],
   "note": "C70_functions; run_debug in GrammarSpec.v."
  },
  {
   "property": "C71",
   "status": "proved",
   "theorems": [
    "C71_cells_partial",
    "C71_cache_refuted",
    "C71_inside_partial"
   ],
   "note": "False of the code for the name cache: C71_cache_refuted (26 bytes -> 2^31-1 cache places). Proved for all other tables (C71_cells_partial) and for operand lists and debug tables (C71_inside_partial, which also bounds the cache by the announced number of strings plus the file). Types inside types: C79."
  },
  {
   "property": "C72",
   "status": "proved",
   "theorems": [
    "C72_kept",
    "C72_accepts",
    "C72_last_negative",
    "C72_first_kind",
    "C72_first_refuted",
    "C72_last_refuted"
   ],
   "note": "C72_kept (every run; d_log is the ghost list of errors found), C72_accepts, C72_last_negative, C72_first_kind; C72_first_refuted and C72_last_refuted are the two refutations."
  },
  {
   "property": "C73",
   "status": "proved",
   "theorems": [
    "C73_no_types",
    "C73_last_global"
   ],
   "note": "C73_no_types, C73_last_global; files of version 4 with no numbers, strings or debug data before the types (small_file), any encodings and sizes."
  },
  {
   "property": "C74",
   "status": "proved",
   "theorems": [
    "C74_alone",
    "C74_quiet",
    "C74_valid",
    "C74_ends",
    "C74_independent_refuted",
    "C74_sticky"
   ],
   "note": "False in general of the code (C74_independent_refuted: for every valid module and every file that records an error there are schedules with different outcomes). Proved for all schedules of any number of files that leave no error (C74_quiet, C74_valid; no store is ever pending, so no data race), with termination and absence of deadlock (C74_ends). C74_alone ties the thread model to the sequential one."
  },
  {
   "property": "C75",
   "status": "proved",
   "theorems": [
    "C75_native",
    "C75_native_alone",
    "C75_native_sensitive",
    "C75_border_refuted",
    "C75_function",
    "C75_function_panics",
    "C75_reader_refuted"
   ],
   "note": "Natives: exact (C75_native, C75_native_alone, C75_native_sensitive); that different natives have different signed names is false (C75_border_refuted). Functions: exact iff field information is present (C75_function, C75_function_panics), which it never is after reading (C75_reader_refuted)."
  },
  {
   "property": "C76",
   "status": "proved",
   "theorems": [
    "C76_reinit"
   ],
   "note": "C76_reinit, by induction over the history of init calls; JIT module reduced to its data declarations and global values."
  },
  {
   "property": "C77",
   "status": "proved",
   "theorems": [
    "C77_exact",
    "C77_address_independent"
   ],
   "note": "C77_exact (refinement of a reference allocator; no assumption on the system allocator), C77_address_independent."
  },
  {
   "property": "C78",
   "status": "proved",
   "theorems": [
    "C78_cut_integers",
    "C78_cut_floats",
    "C78_work_refuted",
    "C78_same",
    "C78_turns",
    "C78_turns_bounded",
    "C78_turns_refuted"
   ],
   "note": "False of the code, settled exactly: C78_turns bounds the turns from both sides for every byte sequence in every process; C78_turns_bounded shows that only files cut inside a number table exceed their size (by more than two turns); C78_turns_refuted and C78_work_refuted give the excess; C78_cut_integers and C78_cut_floats the exact outcome and errors of every cut number table. C78_same: the counting model has the outcomes of the reader."
  },
  {
   "property": "C79",
   "status": "proved",
   "theorems": [
    "C79_types_refuted",
    "C79_types_bound",
    "C79_text_partial",
    "C79_names_refuted"
   ],
   "note": "False of the code (C79_types_refuted: exponential; C79_names_refuted: quadratic). Proved: string tables are linear (C79_text_partial); no type is more than exponential (C79_types_bound)."
  },
  {
   "property": "C80",
   "status": "proved",
   "theorems": [
    "C80_prefix",
    "C80_outcome"
   ],
   "note": "C80_prefix (whole final state), C80_outcome (API level). Extends C38 from accepted files to all outcomes; the length of the file is kept because a read beyond the end fails."
  },
  {
   "property": "C81",
   "status": "proved",
   "theorems": [
    "C81_profile",
    "C81_small",
    "C81_accepted",
    "C81_overflow_refuted",
    "C81_wrap_refuted"
   ],
   "note": "C81_profile (every file), C81_small, C81_accepted; C81_overflow_refuted and C81_wrap_refuted show that the size limit cannot simply be dropped (every n with 2^31 <= 3n < 2^32)."
  },
  {
   "property": "C82",
   "status": "proved",
   "theorems": [
    "C82_sections",
    "C82_cut",
    "C82_every",
    "C82_refused_refuted"
   ],
   "note": "C82_cut gives the exact outcome and error cell for a cut at every place; C82_every covers every accepted file and every cut; C82_sections ties the pieces to the grammar of C66; C82_refused_refuted: the expected behaviour (an error) fails for the last byte of every file with a type."
  },
  {
   "property": "C83",
   "status": "proved",
   "theorems": [
    "C83_marks",
    "C83_legal",
    "C83_refs",
    "C83_super",
    "C83_natives",
    "C83_function",
    "C83_function_refuted"
   ],
   "note": "C83_marks (the marked pieces are the grammar's bytes), C83_legal (the list of faults is complete), C83_refs, C83_natives, C83_function (exact outcome), C83_super (crash); C83_function_refuted: a bad function that is not the last derails the reader."
  },
  {
   "property": "C84",
   "status": "proved",
   "theorems": [
    "C84_refused",
    "C84_outcome",
    "C84_exclusive"
   ],
   "note": "For a process whose error cell is empty; C42_after says what a recorded error changes. Debug build (arithmetic overflow panics); C81 relates the release build."
  },
  {
   "property": "C85",
   "status": "proved",
   "theorems": [
    "C85_copies",
    "C85_unannounced",
    "C85_uniform",
    "C85_accepted",
    "C85_family",
    "C85_linear_refuted",
    "C85_quadratic_refuted"
   ],
   "note": "False of the code as a linear bound, settled: C85_copies, C85_unannounced, C85_uniform and C85_accepted bound the copies for every byte sequence; C85_family, C85_linear_refuted, C85_quadratic_refuted show that the bound's order is attained. Counted are entries of the module's tables; what an entry owns is not (C79)."
  },
  {
   "property": "C86",
   "status": "proved",
   "theorems": [
    "C86_filled",
    "C86_undeclared",
    "C86_accepted",
    "C86_uniform",
    "C86_size_refuted",
    "C86_crash"
   ],
   "note": "False of the code as a linear bound, settled: C86_filled, C86_undeclared, C86_accepted, C86_uniform bound the entries for every byte sequence and every way the read ends; C86_size_refuted and C86_crash show that the two extra terms are attained."
  },
  {
   "property": "C87",
   "status": "proved",
   "theorems": [
    "C87_work",
    "C87_accepted",
    "C87_spellings"
   ],
   "note": "C87_work gives both counts exactly, for every legal tree, every spelling and every trailing bytes (WorkSpec.v has the formulas); C87_accepted: every accepted file has such a tree; C87_spellings: spelling does not matter. Counted: loop turns and vec! entries of CostModel.v, not the work inside one turn."
  },
  {
   "property": "C88",
   "status": "proved",
   "theorems": [
    "C88_counts",
    "C88_compare",
    "C88_compare_exact",
    "C88_lookup",
    "C88_alloc",
    "C88_functions",
    "C88_finalize",
    "C88_bound",
    "C88_exponential_refuted"
   ],
   "note": "HashCostModel.v (generated from HashModel.v by gen_hashcost.py) counts ValueType == ValueType evaluations of the derived PartialEq (fields in declaration order, Vec lengths first, short-circuit); C88_counts proves its outcomes are HashModel's. C88_compare_exact depends on that order (newer compilers may compare scalar fields first); the other bounds do not."
  },
  {
   "property": "C89",
   "status": "proved",
   "theorems": [
    "C89_clone",
    "C89_drop",
    "C89_compare",
    "C89_bound",
    "C89_reached"
   ],
   "note": "TypeDepthModel.v writes out the derived Clone and PartialEq and the drop glue, each returning the deepest nesting of calls on ValueType; clone and == are proved to be the identity and equality. Stack bytes per call are the compiler's business and not modelled; so is whether a stack overflows. Debug (derived, unused by the crate) is not modelled."
  },
  {
   "property": "C90",
   "status": "proved",
   "theorems": [
    "C90_stream",
    "C90_exact",
    "C90_alike",
    "C90_primitive_refuted",
    "C90_string_refuted",
    "C90_registers_refuted"
   ],
   "note": "The byte string of FunHashSpec.v (proved in C58_exact to be what hash_fun feeds to the CRC) is decoded from the left: the opcode fixes the width of the first operands, their values fix the number of the others. BlindSpec.v says what two functions must share. C90_string_refuted and C90_registers_refuted are the two ways in which the string is ambiguous, C90_ex shows each on concrete modules."
  },
  {
   "property": "C91",
   "status": "proved",
   "theorems": [
    "C91_levels",
    "C91_unnoticed",
    "C91_functions_refuted",
    "C91_exact",
    "C91_hash"
   ],
   "note": "Agreement on n levels is a recursive definition (TypeBlindSpec.v) that does not mention hashing. C91_unnoticed states the consequence for ValueType::hash and the signatures stored by CodeHash::alloc. The converse (C91_exact, C91_hash) decodes the serialisation of C47 for types whose names are the same (names are not delimited); counts are taken to fit 64 bits, as they do in the code. C91_ex: three references to different virtual types."
  },
  {
   "property": "C92",
   "status": "proved",
   "theorems": [
    "C92_counts",
    "C92_alloc",
    "C92_hash",
    "C92_quadratic",
    "C92_finalize",
    "C92_exponential_refuted"
   ],
   "note": "Model: HashCopyModel.v, where every clone of something that owns types is an explicit step; C92_counts ties its outcomes to HashModel.v. The measure is `values` of C79. `clone` of functions includes registers, the class and the function a field points at. C92_finalize is about any hash structure whose tables have the declared lengths (of loaded modules finalize panics at the first function, C88). C92_exponential_refuted: the claim that copying stays within reach of the file size is false."
  }
 ]
}