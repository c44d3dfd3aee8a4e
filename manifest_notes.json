{
 "C10": {
  "note": "Word alignment proved for every history. The property as listed also says what does not hold (12-byte headers, 16-byte alignment); C10_not_aligned_refuted exhibits both."
 },
 "C12": {
  "note": "Proved for every non-empty payload; C12_empty_refuted shows the restriction is necessary."
 },
 "C17": {
  "status": "proved",
  "note": "C17_iff: exact condition. C17_line0_marked_partial and C17_line0_unmarked_refuted are its two halves (the unconditional guarantee is false of the code)."
 },
 "C22": {
  "status": "proved",
  "note": "C22_into_mut_ptr_refuted: for every block. The expected property is false of the code."
 },
 "C25": {
  "status": "proved",
  "note": "C25_iff: exact condition; the others are its halves (and the unsigned reader)."
 },
 "C28": {
  "status": "proved",
  "note": "C28_iff: exact condition; the others are its halves."
 },
 "C31": {
  "status": "proved",
  "note": "C31_iff: exact condition; C31_refuted: what the list is otherwise; C31_module: in every accepted module."
 },
 "C32": {
  "status": "proved",
  "note": "C32_iff: exact condition; C32_repeat_refuted, C32_line_refuted: what happens otherwise. (Exact meaning of every stream: C70.)"
 },
 "C35": {
  "status": "proved",
  "note": "C35_iff: exact condition for every entry of every encoded module; the others are its halves."
 },
 "C36": {
  "status": "proved",
  "note": "False in general of the code. C36_exact: what every sequence of lookups yields; C36_iff: resolution is right at every moment iff the names other than the last of the table are first used in increasing order; C36_earlier: a wrong answer is always an earlier string looked up before. C36_increasing_partial and C36_order_refuted are the two plain cases."
 },
 "C42": {
  "status": "proved",
  "note": "C42_after: every file and every earlier error; C42_iff: valid files; C42_header: every file with a complete header; C42_sequence_partial: sequences without errors; C42_refuted: independence of history is false."
 },
 "C44": {
  "status": "proved",
  "note": "Termination proved for every input; panic-freedom refuted, with the exact set of inputs on which the reader crashes (C44_crash_iff): those that neither denote a module (C66) nor are refused (C84). Every proper header prefix and every file ending in its counts is one; no encoded well-formed module is."
 },
 "C45": {
  "status": "proved",
  "note": "C45_iff: every accepted file, exact condition, over the spelled tree of C66; C45_empty_refuted, C45_lens_refuted: what is lost."
 },
 "C48": {
  "status": "proved",
  "note": "False of the code: the kind is not hashed. C48_primitive_refuted (every primitive kind hashes to 0), C48_kind_refuted (function/method, object/struct, ref/null collide for all contents), C48_signature_refuted (so do the hot-reload signatures)."
 },
 "C50": {
  "status": "proved",
  "note": "False in general of the code. C50_exact characterises the accepted modules on which hashing succeeds (hashable, HashSpec.v), C50_panics: every other one panics (failed lookup); three common reasons singled out as *_refuted."
 },
 "C52": {
  "status": "proved",
  "note": "False of the code: finalize panics on every accepted module that alloc survives (C52_finalize_refuted); on any other structure where it returns, natives overwrite function signatures (C52_overwrite_refuted, exact contents of the table). C52_hashes: the function hashes such a run leaves, and that nothing else changes."
 },
 "C58": {
  "status": "proved",
  "note": "C58_exact (value, and success iff operands in range), C58_panics, C58_order (pools may be reordered), C58_sensitive (one changed operand word changes the hash); C58_float_refuted: the float lookup bug."
 },
 "C59": {
  "status": "proved",
  "note": "False of the code: C59_alloc_refuted, C59_native_refuted give the general panics; functions without callee operands hash (C58_exact)."
 },
 "C63": {
  "status": "proved",
  "note": "C63_errors (fresh process), C63_later, C63_history (any sequence of reads, crashed ones included). The vocabulary (ErrSpec.v) speaks only of the file's bytes."
 },
 "C64": {
  "status": "proved",
  "note": "C64_crashes, C64_kinds."
 },
 "C65": {
  "status": "proved",
  "note": "C65_complete, C65_short: exact outcome of read_index on every input."
 },
 "C66": {
  "status": "proved",
  "note": "C66_exact (iff, both directions), C66_position. Grammar and meaning in GrammarSpec.v, free of decoder definitions."
 },
 "C67": {
  "status": "proved",
  "note": "C67_unambiguous, C67_spelling."
 },
 "C68": {
  "status": "proved",
  "note": "C68_indices."
 },
 "C69": {
  "status": "proved",
  "note": "C69_types; mean_type/resolve in GrammarSpec.v."
 },
 "C70": {
  "status": "proved",
  "note": "C70_functions; run_debug in GrammarSpec.v."
 },
 "C71": {
  "status": "proved",
  "note": "False of the code for the name cache: C71_cache_refuted (26 bytes -> 2^31-1 cache places). Proved for all other tables (C71_cells_partial) and for operand lists and debug tables (C71_inside_partial, which also bounds the cache by the announced number of strings plus the file). Types inside types: C79."
 },
 "C72": {
  "status": "proved",
  "note": "C72_kept (every run; d_log is the ghost list of errors found), C72_accepts, C72_last_negative, C72_first_kind; C72_first_refuted and C72_last_refuted are the two refutations."
 },
 "C73": {
  "status": "proved",
  "note": "C73_no_types, C73_last_global; files of version 4 with no numbers, strings or debug data before the types (small_file), any encodings and sizes."
 },
 "C74": {
  "status": "proved",
  "note": "False in general of the code (C74_independent_refuted: for every valid module and every file that records an error there are schedules with different outcomes). Proved for all schedules of any number of files that leave no error (C74_quiet, C74_valid; no store is ever pending, so no data race), with termination and absence of deadlock (C74_ends). C74_alone ties the thread model to the sequential one."
 },
 "C75": {
  "status": "proved",
  "note": "Natives: exact (C75_native, C75_native_alone, C75_native_sensitive); that different natives have different signed names is false (C75_border_refuted). Functions: exact iff field information is present (C75_function, C75_function_panics), which it never is after reading (C75_reader_refuted)."
 },
 "C76": {
  "status": "proved",
  "note": "C76_reinit, by induction over the history of init calls; JIT module reduced to its data declarations and global values."
 },
 "C77": {
  "status": "proved",
  "note": "C77_exact (refinement of a reference allocator; no assumption on the system allocator), C77_address_independent."
 },
 "C78": {
  "status": "proved",
  "note": "False of the code, settled exactly: C78_turns bounds the turns from both sides for every byte sequence in every process; C78_turns_bounded shows that only files cut inside a number table exceed their size (by more than two turns); C78_turns_refuted and C78_work_refuted give the excess; C78_cut_integers and C78_cut_floats the exact outcome and errors of every cut number table. C78_same: the counting model has the outcomes of the reader."
 },
 "C79": {
  "status": "proved",
  "note": "False of the code (C79_types_refuted: exponential; C79_names_refuted: quadratic). Proved: string tables are linear (C79_text_partial); no type is more than exponential (C79_types_bound)."
 },
 "C80": {
  "status": "proved",
  "note": "C80_prefix (whole final state), C80_outcome (API level). Extends C38 from accepted files to all outcomes; the length of the file is kept because a read beyond the end fails."
 },
 "C81": {
  "status": "proved",
  "note": "C81_profile (every file), C81_small, C81_accepted; C81_overflow_refuted and C81_wrap_refuted show that the size limit cannot simply be dropped (every n with 2^31 <= 3n < 2^32)."
 },
 "C46": {
  "status": "proved",
  "note": "C46_standard: the value is the IEEE remainder (CrcSpec.v), and no other value is."
 },
 "C82": {
  "status": "proved",
  "note": "C82_cut gives the exact outcome and error cell for a cut at every place; C82_every covers every accepted file and every cut; C82_sections ties the pieces to the grammar of C66; C82_refused_refuted: the expected behaviour (an error) fails for the last byte of every file with a type."
 },
 "C83": {
  "status": "proved",
  "note": "C83_marks (the marked pieces are the grammar's bytes), C83_legal (the list of faults is complete), C83_refs, C83_natives, C83_function (exact outcome), C83_super (crash); C83_function_refuted: a bad function that is not the last derails the reader."
 },
 "C84": {
  "status": "proved",
  "note": "For a process whose error cell is empty; C42_after says what a recorded error changes. Debug build (arithmetic overflow panics); C81 relates the release build."
 },
 "C85": {
  "status": "proved",
  "note": "False of the code as a linear bound, settled: C85_copies, C85_unannounced, C85_uniform and C85_accepted bound the copies for every byte sequence; C85_family, C85_linear_refuted, C85_quadratic_refuted show that the bound's order is attained. Counted are entries of the module's tables; what an entry owns is not (C79)."
 },
 "C86": {
  "status": "proved",
  "note": "False of the code as a linear bound, settled: C86_filled, C86_undeclared, C86_accepted, C86_uniform bound the entries for every byte sequence and every way the read ends; C86_size_refuted and C86_crash show that the two extra terms are attained."
 },
 "C87": {
  "status": "proved",
  "note": "C87_work gives both counts exactly, for every legal tree, every spelling and every trailing bytes (WorkSpec.v has the formulas); C87_accepted: every accepted file has such a tree; C87_spellings: spelling does not matter. Counted: loop turns and vec! entries of CostModel.v, not the work inside one turn."
 },
 "C88": {
  "status": "proved",
  "note": "HashCostModel.v (generated from HashModel.v by gen_hashcost.py) counts ValueType == ValueType evaluations of the derived PartialEq (fields in declaration order, Vec lengths first, short-circuit); C88_counts proves its outcomes are HashModel's. C88_compare_exact depends on that order (newer compilers may compare scalar fields first); the other bounds do not."
 },
 "C89": {
  "status": "proved",
  "note": "TypeDepthModel.v writes out the derived Clone and PartialEq and the drop glue, each returning the deepest nesting of calls on ValueType; clone and == are proved to be the identity and equality. Stack bytes per call are the compiler's business and not modelled; so is whether a stack overflows. Debug (derived, unused by the crate) is not modelled."
 },
 "C90": {
  "status": "proved",
  "note": "The byte string of FunHashSpec.v (proved in C58_exact to be what hash_fun feeds to the CRC) is decoded from the left: the opcode fixes the width of the first operands, their values fix the number of the others. BlindSpec.v says what two functions must share. C90_string_refuted and C90_registers_refuted are the two ways in which the string is ambiguous, C90_ex shows each on concrete modules."
 },
 "C91": {
  "status": "proved",
  "note": "Agreement on n levels is a recursive definition (TypeBlindSpec.v) that does not mention hashing. C91_unnoticed states the consequence for ValueType::hash and the signatures stored by CodeHash::alloc. The converse (C91_exact, C91_hash) decodes the serialisation of C47 for types whose names are the same (names are not delimited); counts are taken to fit 64 bits, as they do in the code. C91_ex: three references to different virtual types."
 },
 "C92": {
  "status": "proved",
  "note": "Model: HashCopyModel.v, where every clone of something that owns types is an explicit step; C92_counts ties its outcomes to HashModel.v. The measure is `values` of C79. `clone` of functions includes registers, the class and the function a field points at. C92_finalize is about any hash structure whose tables have the declared lengths (of loaded modules finalize panics at the first function, C88). C92_exponential_refuted: the claim that copying stays within reach of the file size is false."
 }
}