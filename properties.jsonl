{"id": "C01", "title": "Allocation sizes are rounded up to whole words", "statement": "The number of bytes reserved for a request of n bytes is the least multiple of the 8-byte word size that is >= n, for every n that does not overflow a usize.", "quantifier": "every request size n with n + 7 < 2^64", "why_tests_cant": "The domain is all of usize; a test samples a few sizes and misses boundary or carry mistakes.", "anchors": ["crates/stickyimmix/src/allocator.rs: alloc_size_of"]}
{"id": "C02", "title": "Every size belongs to exactly the documented size class", "statement": "Sizes 1..=128 are Small, 129..=32752 are Medium, 32753..=2^32-1 are Large, and every other size (0 or above 2^32-1) is rejected with BadRequest.", "quantifier": "every usize", "why_tests_cant": "Exhaustive classification with five boundaries; tests pick points.", "anchors": ["crates/stickyimmix/src/allocator.rs: SizeClass::get_for_size", "crates/stickyimmix/src/constants.rs"]}
{"id": "C03", "title": "alloc/alloc_array decide success exactly by rounded size and memory availability, and never panic", "statement": "In every state the heap can reach, a request whose rounded header+payload size is 0 or exceeds 32752 returns BadRequest; any other request either succeeds or returns OOM, the latter only when a fresh block was needed and the system allocator refused it. No expect/assert/arithmetic panic is reachable.", "quantifier": "every history of allocations, every header size, every payload size, every system-allocator outcome", "why_tests_cant": "Whether the internal expect()s can fire depends on the whole allocation history and on when the OS runs out of memory.", "anchors": ["crates/stickyimmix/src/heap.rs: StickyImmixHeap::find_space, BlockList::overflow_alloc, alloc, alloc_array"]}
{"id": "C04", "title": "A failed allocation changes nothing", "statement": "When alloc or alloc_array returns an error, the heap's blocks, cursors and every byte of heap memory are exactly as before the call, so retrying later behaves as if the failed call had not happened.", "quantifier": "every reachable heap state and failing request", "why_tests_cant": "Failure injection at every point of every history cannot be enumerated by tests.", "anchors": ["crates/stickyimmix/src/heap.rs: find_space, overflow_alloc"]}
{"id": "C05", "title": "Live allocations never overlap and stay inside the heap's blocks", "statement": "After any history, the storage extents (header plus payload, rounded) of any two successful allocations are disjoint, and each lies inside one block owned by the heap, beyond the block's reserved first 16 bytes.", "quantifier": "every history of alloc/alloc_array calls with arbitrary sizes, and every legal system-allocator behaviour", "why_tests_cant": "Overlap depends on arbitrary interleavings of small and medium sizes across head/overflow blocks.", "anchors": ["crates/stickyimmix/src/heap.rs: find_space, overflow_alloc", "crates/stickyimmix/src/bumpblock.rs: inner_alloc"]}
{"id": "C06", "title": "Object contents and headers survive all later heap activity", "statement": "Reading any live object's payload or header after any later sequence of allocations (successful or failing) and writes by the client to its objects returns exactly the bytes last written to that object; no heap operation or write to another object disturbs them.", "quantifier": "every history and every live object in it", "why_tests_cant": "test_many_obs checks a single fixed workload; corruption depends on history.", "anchors": ["crates/stickyimmix/src/heap.rs: alloc, alloc_array"]}
{"id": "C07", "title": "Arrays come back zero-filled", "statement": "On success alloc_array(n) returns a pointer at which the n payload bytes are all zero, whatever the memory held before.", "quantifier": "every n, every reachable heap and every initial memory content", "why_tests_cant": "Prior contents of memory are outside a test's control (fresh OS pages are zero anyway).", "anchors": ["crates/stickyimmix/src/heap.rs: alloc_array"]}
{"id": "C08", "title": "Headers are found from object pointers and back", "statement": "For every pointer returned by alloc/alloc_array, get_header gives the address where that object's header was written, and get_object and get_header are mutually inverse on all addresses.", "quantifier": "every header size, every reachable allocation", "why_tests_cant": "Pointer arithmetic must be right for every header size and address.", "anchors": ["crates/stickyimmix/src/heap.rs: get_header, get_object"]}
{"id": "C09", "title": "Headers record the true size, class and initial mark", "statement": "The header created for a successful allocation is built from the exact payload size (no truncation to 32 bits occurs), the size class of the rounded total, and the mark Allocated.", "quantifier": "every successful alloc/alloc_array", "why_tests_cant": "Truncation (`as u32`) and class mistakes show only at particular sizes.", "anchors": ["crates/stickyimmix/src/heap.rs: alloc, alloc_array", "crates/stickyimmix/src/allocator.rs: AllocHeader"]}
{"id": "C10", "title": "Storage is word aligned", "statement": "The storage of every allocation starts at an 8-byte aligned address, and the object pointer is 8-byte aligned whenever the header size is a multiple of 8. (It is not aligned to larger alignments, nor when the header size is not a multiple of 8, even if the object type needs it.)", "quantifier": "every history, every header size", "why_tests_cant": "Alignment must hold for every cursor position reachable through any mix of sizes.", "anchors": ["crates/stickyimmix/src/heap.rs: alloc", "crates/stickyimmix/src/allocator.rs: alloc_size_of"]}
{"id": "C11", "title": "The block metadata word is never overwritten by allocation", "statement": "In every reachable heap state the first word of each block still contains the address of that block's metadata, whatever was allocated or written by clients inside their objects.", "quantifier": "every history", "why_tests_cant": "Requires an invariant over all histories of bump allocation.", "anchors": ["crates/stickyimmix/src/bumpblock.rs: BumpBlock::new, write", "crates/stickyimmix/src/constants.rs: FIRST_OBJECT_OFFSET"]}
{"id": "C12", "title": "The owning block is recoverable by masking an object pointer", "statement": "Masking a returned pointer with BLOCK_PTR_MASK gives the base of the block that holds the object, for every object with a non-empty payload. (For an empty payload the pointer may lie one past the block.)", "quantifier": "every successful allocation in every history", "why_tests_cant": "Depends on offsets reachable at block ends.", "anchors": ["crates/stickyimmix/src/constants.rs: BLOCK_PTR_MASK", "crates/stickyimmix/src/heap.rs: alloc, alloc_array"]}
{"id": "C13", "title": "Hole search returns exactly the first usable hole", "statement": "find_next_available_hole(at) returns the first maximal run of unmarked lines at or after line at/128, minus its first line unless that line is line 0 (conservative marking), as byte bounds; it returns None exactly when no such non-empty run exists.", "quantifier": "every 256-line mark pattern and every starting offset within the block", "why_tests_cant": "2^256 mark patterns; tests cover five.", "anchors": ["crates/stickyimmix/src/blockmeta.rs: BlockMeta::find_next_available_hole"]}
{"id": "C14", "title": "Bump allocation in a partly marked block never touches live lines", "statement": "For any mark pattern and any sequence of allocation requests on a recycled block, every returned range lies in unmarked, not conservatively marked lines, lies in the block, and ranges handed out are pairwise disjoint and in increasing order.", "quantifier": "every mark pattern, every sequence of request sizes", "why_tests_cant": "Exponential number of mark patterns and request sequences.", "anchors": ["crates/stickyimmix/src/bumpblock.rs: inner_alloc", "crates/stickyimmix/src/blockmeta.rs"]}
{"id": "C15", "title": "Bump allocation terminates and fails only when nothing fits", "statement": "Every allocation request on a block terminates; it fails only if neither the current hole nor any later usable hole of the block is large enough, and it succeeds in the first hole that is.", "quantifier": "every block state and request size", "why_tests_cant": "Termination and completeness are statements about all mark patterns.", "anchors": ["crates/stickyimmix/src/bumpblock.rs: inner_alloc"]}
{"id": "C16", "title": "A fresh block serves exactly floor(32752 / size) equal requests", "statement": "From a new block, requests of a fixed positive size succeed exactly floor((32768-16)/size) times, at consecutive addresses starting at offset 16, and then fail.", "quantifier": "every positive request size", "why_tests_cant": "test_empty_block fixes one size.", "anchors": ["crates/stickyimmix/src/bumpblock.rs: BumpBlock::new, inner_alloc"]}
{"id": "C17", "title": "When a recycled block hands out its metadata word", "statement": "Allocation from a recycled block never returns space overlapping the block's first 16 bytes, through any sequence of requests, exactly when line 0 is marked or the search starts beyond line 0. (Otherwise the first request of at most a line is given offset 0, so the unconditional guarantee is false.)", "quantifier": "every mark pattern with which a block may be recycled", "why_tests_cant": "Needs the particular pattern with line 0 unmarked; existing tests mark line 0 or do not check offsets.", "anchors": ["crates/stickyimmix/src/bumpblock.rs: inner_alloc", "crates/stickyimmix/src/blockmeta.rs: find_next_available_hole"]}
{"id": "C18", "title": "Block creation succeeds exactly on powers of two with memory available", "statement": "Block::new(size) returns BadRequest iff size is not a power of two, OOM iff it is and the system allocator returns null, and otherwise a block of that size at the address obtained, requested with alignment equal to size.", "quantifier": "every size and allocator outcome", "why_tests_cant": "All usize values.", "anchors": ["crates/stickyimmix/src/blockalloc.rs: Block::new, internal::alloc_block"]}
{"id": "C19", "title": "Placement policy: at most one new block per request, and only when needed", "statement": "A request obtains at most one block from the system; it obtains one only if the block it would use (head, or overflow for a medium object not fitting the head) is missing or lacks room; objects that fit the head go to the head.", "quantifier": "every reachable state and request", "why_tests_cant": "Depends on remaining room in both blocks for any history.", "anchors": ["crates/stickyimmix/src/heap.rs: find_space, overflow_alloc"]}
{"id": "C20", "title": "Retired blocks waste less than the request that retired them", "statement": "Whenever a head block is retired, fewer than 128 bytes of it are unused if small objects retire it; in any history in which all requests round to at most m bytes, every retired block has fewer than m bytes unused.", "quantifier": "every history and bound m", "why_tests_cant": "A bound over all histories.", "anchors": ["crates/stickyimmix/src/heap.rs: find_space, overflow_alloc"]}
{"id": "C21", "title": "No block is leaked or freed twice", "statement": "Over any history the set of blocks owned by the heap is exactly the set obtained from the system; dropping the heap releases each exactly once.", "quantifier": "every history", "why_tests_cant": "Ownership over histories, including failing ones.", "anchors": ["crates/stickyimmix/src/heap.rs: BlockList", "crates/stickyimmix/src/blockalloc.rs: Drop for Block"]}
{"id": "C22", "title": "Extracting a block's pointer frees the block", "statement": "Block::into_mut_ptr runs the block's destructor: for every block the memory behind the returned pointer has already been freed, and reassembling the block with from_raw_parts and dropping it frees it a second time. (The expected property, that the pointer stays valid until it is reassembled and dropped, is false.)", "quantifier": "every block", "why_tests_cant": "Use-after-free is invisible to functional tests.", "anchors": ["crates/stickyimmix/src/blockalloc.rs: Block::into_mut_ptr, from_raw_parts, Drop"]}
{"id": "C23", "title": "Fixed-width reads are little-endian, exact and atomic", "statement": "Reading u8/i8/u16/i16/u32/i32/u64/i64/f64 decodes the next 1/2/4/8 bytes little-endian (two's complement for signed), consumes exactly that many bytes, and on short input returns NoMoreData at the current position and consumes nothing.", "quantifier": "every buffer and value", "why_tests_cant": "All values of each width and all buffer lengths.", "anchors": ["crates/brass/src/decoder.rs: Decode, read_bytes"]}
{"id": "C24", "title": "Position accounting is exact", "statement": "At any point while decoding, the reported file position plus the number of remaining bytes equals the input length; the remaining bytes are a suffix of the input; reads never move backwards.", "quantifier": "every input and every decoding step, successful or failing", "why_tests_cant": "Must hold along every path of the parser for every input.", "anchors": ["crates/brass/src/decoder.rs: advance, read_bytes, file_position"]}
{"id": "C25", "title": "Which variable-length indices decode to the value the format encodes", "statement": "An index value encoded by the HashLink format decodes to itself, consuming exactly its encoding, if and only if |v| < 8192 (the one- and two-byte forms). (The expected property, for all |v| < 2^29, is false: the four-byte form is decoded as a raw little-endian word with its tag bits.)", "quantifier": "every encodable index |v| < 2^29", "why_tests_cant": "A billion values; the bundled example uses few of them.", "anchors": ["crates/brass/src/decoder.rs: read_index"]}
{"id": "C26", "title": "Index decoding is total on complete encodings and consumes 1, 2 or 4 bytes by tag", "statement": "The first byte alone decides whether 1, 2 or 4 bytes are consumed; results of one-byte forms lie in 0..127 and two-byte forms in -8191..8191; on short input no index is produced.", "quantifier": "every byte sequence", "why_tests_cant": "All byte prefixes.", "anchors": ["crates/brass/src/decoder.rs: read_index", "crates/brass/src/code.rs: INDEX, UINDEX"]}
{"id": "C27", "title": "Unsigned indices never yield negative values silently", "statement": "Whenever a count or unsigned index in the file decodes negative, the module is not accepted (Err or panic, never Ok).", "quantifier": "every input file", "why_tests_cant": "Depends on every position at which such an index can appear.", "anchors": ["crates/brass/src/code.rs: UINDEX, check_error, read"]}
{"id": "C28", "title": "Which string tables round-trip", "statement": "Reading a table written as length-prefixed NUL-separated valid UTF-8 strings followed by their lengths returns exactly those strings, their byte lengths, and leaves exactly the following bytes, if and only if every string is shorter than 8192 bytes. (Longer ones take the four-byte index form for their length; with one of them anywhere in the table the strings are never returned.)", "quantifier": "every list of valid UTF-8 strings", "why_tests_cant": "All string lists, including empty strings, embedded NULs and multi-byte characters at boundaries.", "anchors": ["crates/brass/src/code.rs: read_strings"]}
{"id": "C29", "title": "Strings produced by the reader are valid UTF-8 of the recorded length", "statement": "For every input, if a string table is produced, each string is well-formed UTF-8, its recorded length is its byte length, and invalid bytes only ever become U+FFFD.", "quantifier": "every input byte sequence", "why_tests_cant": "All byte sequences.", "anchors": ["crates/brass/src/code.rs: read_strings"]}
{"id": "C30", "title": "Opcodes decode with exactly their operands", "statement": "Every instruction encoded with its opcode number and operand list is decoded to that opcode with those operands in order and consumes exactly its encoding; opcode numbers >= 99 make the module rejected.", "quantifier": "every opcode and operand list", "why_tests_cant": "99 opcodes x unbounded operand lists (calls and switches are variadic).", "anchors": ["crates/brass/src/code.rs: read_opcode", "crates/brass/src/op.rs: OP_NARGS, Op"]}
{"id": "C31", "title": "Which instructions keep their operand list", "statement": "The extra-operand list of a decoded instruction holds exactly the encoded extra operands if and only if there are none, or the instruction has a fixed number of at most 4 operands. (For every variadic instruction with n > 0 extra operands, and OCall3/OCall4, the list has 2n entries, the last n being 0; in every accepted module.)", "quantifier": "every variadic instruction", "why_tests_cant": "Needs every operand count.", "anchors": ["crates/brass/src/code.rs: read_opcode"]}
{"id": "C32", "title": "Which debug line information round-trips", "statement": "Debug info encoded in the HashLink scheme (file switches, run-length repeats, small deltas, absolute lines) decodes to the (file, line) of every instruction if and only if it has no effective repeat and no absolute line from 256 on. (Repeats fill nothing, so such a table is never read back from its bytes; absolute lines are cut to eight bits.)", "quantifier": "every debug table", "why_tests_cant": "All combinations of the four record forms.", "anchors": ["crates/brass/src/code.rs: debug_infos"]}
{"id": "C33", "title": "Debug decoding terminates and yields one pair per instruction", "statement": "For every input and instruction count the debug reader terminates, and on success yields exactly two numbers per instruction.", "quantifier": "every input and count", "why_tests_cant": "A while loop whose progress depends on input.", "anchors": ["crates/brass/src/code.rs: debug_infos"]}
{"id": "C34", "title": "Type entries round-trip", "statement": "Each type-table entry (primitive, function/method, object/struct, ref, virtual, abstract, enum, null, packed) written in the format decodes to that type with its names, counts, fields, prototypes, bindings and parameters, consuming exactly its encoding.", "quantifier": "every type entry whose indices fit the short index forms and whose name lookups are in order", "why_tests_cant": "Unbounded lists of fields, prototypes, constructors.", "anchors": ["crates/brass/src/code.rs: read_type"]}
{"id": "C35", "title": "Which type references resolve to the referenced type", "statement": "In a module read back, the type at entry i is the one its entry describes, every reference to k denoting the type at entry k of the same table, if and only if it refers to earlier entries only. (References to the entry itself or later ones yield a placeholder null type.)", "quantifier": "every type table", "why_tests_cant": "Requires all reference patterns between entries.", "anchors": ["crates/brass/src/code.rs: get_type, read_type, read"]}
{"id": "C36", "title": "Which names resolve to the string at their index", "statement": "Looking up names n1, n2, ... in the string table yields exactly the strings the cache rule of the specification says; every name resolves to the string at its index at every moment if and only if the names other than the last one of the table are first used in increasing order; otherwise a name may denote an earlier string that was looked up before, never a later one. (The lookup cache inserts instead of replacing.)", "quantifier": "every sequence of name lookups", "why_tests_cant": "Depends on the whole sequence of lookups made so far.", "anchors": ["crates/brass/src/code.rs: get_ustring, read_ustring"]}
{"id": "C37", "title": "A whole module file round-trips", "statement": "Reading the encoding of a module (ints, floats, strings, bytes, debug files, types, globals, natives, functions with opcodes and debug info, constants, entry point; versions 2 to 5) returns Ok with exactly those tables.", "quantifier": "every module whose indices fit the short forms, with in-order names and supported debug records", "why_tests_cant": "Unbounded modules; the only test is one example file.", "anchors": ["crates/brass/src/code.rs: Code::read"]}
{"id": "C38", "title": "Bytes after the module do not matter", "statement": "If a file is accepted, the same file followed by any bytes is accepted with the same result.", "quantifier": "every accepted input and every suffix", "why_tests_cant": "All inputs and suffixes.", "anchors": ["crates/brass/src/code.rs: Code::read"]}
{"id": "C39", "title": "A truncated module is never accepted", "statement": "If a file is accepted having consumed n bytes, no prefix shorter than n bytes is accepted (except that a prefix may be rejected by Err or panic).", "quantifier": "every accepted input and every shorter prefix", "why_tests_cant": "All truncation points of all files.", "anchors": ["crates/brass/src/code.rs: Code::read"]}
{"id": "C40", "title": "Table sizes in an accepted module agree with its counts", "statement": "For every accepted file: ints, floats, byte positions, natives, functions and constants have exactly their declared counts; each function has exactly its declared registers and instructions (and 2 debug entries per instruction when debug info is present); each constant has its declared fields; type and global tables hold at least the declared number of entries.", "quantifier": "every accepted input", "why_tests_cant": "Must follow from acceptance for arbitrary, including adversarial, files.", "anchors": ["crates/brass/src/code.rs: Code::read, read_function"]}
{"id": "C41", "title": "Only the magic HLB and versions 2..5 are accepted", "statement": "A file is accepted only if it starts with the bytes H, L, B and a version byte in 2..=5; a wrong magic gives InvalidBytecodeHeader and an unsupported version UnsupportedBytecodeVersion, leaving later reads unaffected.", "quantifier": "every input", "why_tests_cant": "All inputs.", "anchors": ["crates/brass/src/code.rs: Code::read"]}
{"id": "C42", "title": "What a read returns after an earlier error", "statement": "As long as no earlier read in the process has left an error, the result of Code::read depends on its bytes alone. After an error e, every file is answered in one of two ways: e is reported again, or the file is refused or crashes in its header as in a fresh process; every file with a complete header, and so every valid file, gets e. (So independence of history is false: the error is never cleared.)", "quantifier": "every sequence of reads in one process", "why_tests_cant": "Needs sequences of reads with an earlier failure; each unit test runs one.", "anchors": ["crates/brass/src/code.rs: ERRORS, map_err, check_error"]}
{"id": "C43", "title": "Acceptance means no error was recorded", "statement": "Code::read returns Ok only if no decoding error (invalid index, type, opcode, debug file, negative count...) was recorded at any point during the read.", "quantifier": "every input", "why_tests_cant": "All inputs and all error sites.", "anchors": ["crates/brass/src/code.rs: check_error, read"]}
{"id": "C44", "title": "Malformed input yields an error, not a crash", "statement": "For every byte sequence Code::read returns Ok or Err without panicking, and terminates. (Termination holds. Panic-freedom is violated: e.g. the empty input, every proper prefix of the 4-byte header, and every file ending inside its table of counts panic. The inputs that panic are exactly those that neither denote a module nor are refused.)", "quantifier": "every byte sequence", "why_tests_cant": "Fuzzing samples; the claim is universal.", "anchors": ["crates/brass/src/code.rs: Code::read, INDEX", "crates/brass/src/decoder.rs: read_index"]}
{"id": "C45", "title": "What an accepted module keeps of its file", "statement": "An accepted module contains every table its file spells (version, ints, floats, strings and their lengths, bytes, debug files, counts of types and globals, natives, functions with their instructions, constants, entry point) if and only if the file has debug information, types or constants; otherwise it is the empty module. The lengths of debug-file names are always lost.", "quantifier": "every accepted input", "why_tests_cant": "Only unusual modules show it.", "anchors": ["crates/brass/src/code.rs: Code::read"]}
{"id": "C46", "title": "Hashes are standard CRC-32: incremental, and sensitive to any change confined to 32 consecutive bits", "statement": "The hash of a byte sequence is the IEEE 802.3 CRC-32 (remainder modulo the standard generator polynomial). Feeding data in pieces gives the checksum of the concatenation; two different inputs of equal length whose differing bits all lie within 32 consecutive bit positions (in particular: within any 4 consecutive bytes) have different checksums.", "quantifier": "all byte sequences", "why_tests_cant": "All pairs of inputs.", "anchors": ["crates/brass/src/types.rs: ValueType::hash", "crates/brass/src/code_hash.rs: Crc32Hasher uses"]}
{"id": "C47", "title": "Type hashes are a function of exactly the documented shape", "statement": "ValueType::hash is the CRC-32 of a fixed serialisation of the type: counts, names, field-name hashes and one level of nested hashes; super type, prototypes' contents, bindings, global slots do not influence it. Changing one field's name hash, or its type to one of another inner hash, changes the hash.", "quantifier": "every type", "why_tests_cant": "All types.", "anchors": ["crates/brass/src/types.rs: ValueType::hash"]}
{"id": "C48", "title": "Type hashes do not tell kinds apart", "statement": "The kind of a type is not part of its hash or hot-reload signature: every primitive kind hashes to 0, and function/method, object/struct and ref/null types of the same contents collide, whatever the contents. (So i32 and f64 are indistinguishable to hot reload.)", "quantifier": "every pair of types", "why_tests_cant": "All pairs.", "anchors": ["crates/brass/src/types.rs: ValueType::hash", "crates/brass/src/code_hash.rs: hash_type_rec"]}
{"id": "C49", "title": "Hot-reload function index table is the inverse of findex", "statement": "For a module whose function indices are distinct and in range, CodeHash::alloc maps findex of the i-th function to i and findex of the i-th native to nfunctions + i.", "quantifier": "every such module", "why_tests_cant": "All modules.", "anchors": ["crates/brass/src/code_hash.rs: CodeHash::alloc"]}
{"id": "C50", "title": "Exactly which accepted modules can be hashed", "statement": "CodeHash::alloc returns normally on an accepted module if and only if the module is hashable in the sense of a declarative condition (every mentioned type is declared, every global slot named by a class or enum exists, function numbers are in range, ...); on every other accepted module it panics with a failed lookup: in particular on any forward type reference, any class or enum without a global slot, and any module without functions.", "quantifier": "every accepted module", "why_tests_cant": "All modules.", "anchors": ["crates/brass/src/code_hash.rs: CodeHash::alloc, hash_type_rec"]}
{"id": "C51", "title": "Global signatures follow the documented precedence", "statement": "A global's signature is its type hash xor-ed with: the constant's content hash if a constant initialises it, else the type's own hash for class/enum/abstract globals, else its index with the top bit set; and changing an int constant field changes the signature.", "quantifier": "every module on which hashing succeeds", "why_tests_cant": "All modules.", "anchors": ["crates/brass/src/code_hash.rs: CodeHash::alloc, code_hash_type"]}
{"id": "C52", "title": "What finalize computes", "statement": "finalize panics on every accepted module on which alloc succeeded. On any hash structure on which it returns: function i's hash is computed when exactly the functions before it have theirs (later ones count as 0); signature i is native i's for every native, function i's for the functions beyond, and the slots meant for natives stay 0; nothing else changes. (So function and native signatures are not kept apart.)", "quantifier": "every module", "why_tests_cant": "All modules.", "anchors": ["crates/brass/src/code_hash.rs: finalize, hash_fun_sign, hash_native"]}
{"id": "C53", "title": "Module initialisation accepts only void and u8 globals and declares one symbol per u8 global", "statement": "HLModule::init without hot reload succeeds iff every declared global is void or u8, declaring exactly the symbols $global<i> for the u8 globals i, with distinct names; otherwise it panics. The function tables have nfunctions + nnatives entries.", "quantifier": "every module", "why_tests_cant": "All modules.", "anchors": ["crates/brass/src/compiler.rs: HLModule::new, init, init_globals"]}
{"id": "C54", "title": "Accepted types are well-shaped and refer only to table entries", "statement": "In every accepted module, each declared type has the shape its kind says (argument, field, prototype, binding and constructor lists of their declared lengths), every name in it is empty or a string of the string table, field and prototype hashes are the CRC-32 of their names, and every type it refers to (arguments, results, supers, fields, parameters) is a type declared before it or the null placeholder (so types are acyclic); the declared types fill the first half of the table and placeholders the rest; every declared global has a declared type.", "quantifier": "every accepted input file, including files no compiler would write", "why_tests_cant": "Ranges over all inputs that happen to be accepted, not over written modules.", "anchors": ["crates/brass/src/code.rs: Code::read, read_type, get_type"]}
{"id": "C55", "title": "Accepted functions and natives refer only to table entries and have complete instructions", "statement": "In every accepted module each function's type and register types are entries of the type table, every instruction has exactly the operands its opcode calls for, function indices, constants' globals and fields and the entry point are non-negative, and each native's library, name and type come from the tables.", "quantifier": "every accepted input file", "why_tests_cant": "Ranges over all inputs that happen to be accepted.", "anchors": ["crates/brass/src/code.rs: Code::read, read_function, read_opcode"]}
{"id": "C56", "title": "Accepted debug tables are in range", "statement": "In every accepted module with debug information each function has one (file, line) pair per instruction with file -1 or a declared debug file and a non-negative line; without debug information all debug tables are empty.", "quantifier": "every accepted input file", "why_tests_cant": "Ranges over all inputs that happen to be accepted.", "anchors": ["crates/brass/src/code.rs: debug_infos, Code::read"]}
{"id": "C57", "title": "Type signatures do not depend on the type table's order", "statement": "After CodeHash::alloc, the signature stored for a declared type is a function of that type alone: the same type has the same signature at any position and in any module; it changes when the hash of exactly one type it mentions changes.", "quantifier": "every pair of accepted modules on which hashing succeeds, every position", "why_tests_cant": "Relates all pairs of modules and all orders of their tables.", "anchors": ["crates/brass/src/code_hash.rs: CodeHash::alloc, hash_type_rec", "crates/brass/src/types.rs: ValueType::hash"]}
{"id": "C58", "title": "A function's hot-reload hash is the CRC-32 of its meaning", "statement": "For every function of an accepted module on which CodeHash::alloc succeeded, hash_fun returns the CRC-32 of the signatures of its registers followed by its instructions, each operand contributing what it denotes (the integer, string, type signature or callee hash, not the pool index); so reordering the constant pools does not change it, and a change of one operand word between two versions always does. It panics exactly when an operand is out of its pool. (Float constants p are wrongly read at 2p and 2p+1.)", "quantifier": "every accepted module, every table of known function hashes, every function, every pair of versions", "why_tests_cant": "Ranges over all modules and all pairs of versions.", "anchors": ["crates/brass/src/code_hash.rs: CodeHash::hash_fun, hfun"]}
{"id": "C59", "title": "Functions that call other functions cannot be hashed after alloc", "statement": "Straight after alloc, hash_fun panics on every function that calls, or closes over, a function or native; with one hash slot per function, as in finalize, it panics on every function that calls a native. (With other tables of function hashes the outcome is the one of C58.)", "quantifier": "every accepted module, every function with a call or closure", "why_tests_cant": "Ranges over all modules and functions.", "anchors": ["crates/brass/src/code_hash.rs: CodeHash::hash_fun, hfun, finalize"]}
{"id": "C60", "title": "Line and block marks record exactly what was marked since the last reset", "statement": "After any sequence of mark_line, mark_block and reset on fresh block metadata there are exactly 256 line flags, line i is flagged iff mark_line(i) was called since the last reset, the block flag is set iff mark_block was called since then, and the sequence panics iff it marks a line outside 0..255.", "quantifier": "every sequence of marking operations", "why_tests_cant": "Ranges over all histories.", "anchors": ["crates/stickyimmix/src/blockmeta.rs: mark_line, mark_block, reset, line_iter"]}
{"id": "C61", "title": "Pointers identify allocations", "statement": "Two RawPtrs handed out by the heap are equal (== and as_word) iff they come from the same allocation, whatever happened in between; every pointer is non-null and is the address of the object's bytes.", "quantifier": "every history of allocations and stores, every pair of allocations", "why_tests_cant": "Ranges over all histories and pairs.", "anchors": ["crates/stickyimmix/src/rawptr.rs: RawPtr::eq, as_word, as_ptr", "crates/stickyimmix/src/heap.rs: alloc, alloc_array"]}
{"id": "C62", "title": "Memory footprint is proportional to what was allocated", "statement": "The bytes taken from the heap's blocks are exactly the storage of all allocations; if no allocation takes more than mx bytes the heap holds at most total/(32753-mx) + 2 blocks.", "quantifier": "every history of allocations and stores", "why_tests_cant": "An accounting invariant over all histories.", "anchors": ["crates/stickyimmix/src/heap.rs: find_space, overflow_alloc", "crates/stickyimmix/src/bumpblock.rs: inner_alloc"]}
{"id": "C63", "title": "Every reported error is explained by the file", "statement": "Every error Code::read returns in a fresh process names a real defect of the file at the position it carries: the first byte that differs from \"HLB\", a version outside 2..5, a number that does not fit in the rest of the file, a type code >= 23, an opcode >= 99, a negative or out-of-range reference of exactly that value just before the position, a debug file switch or an over-long repeat. In a process that has read other files the error is explained by one of the files read so far; an error left behind by a crashed read can, besides, be about a byte section that does not fit.", "quantifier": "every byte sequence, and every sequence of files read by one process, including reads that crash", "why_tests_cant": "All malformed files.", "anchors": ["crates/brass/src/code.rs: Code::read, check_error, map_err, get_type, read_string, read_ustring, read_type, read_opcode, debug_infos", "crates/brass/src/errors.rs: DecodeError"]}
{"id": "C64", "title": "Every crash of the reader is explained by the file", "statement": "If Code::read panics then it does so at a position where fewer than 4 bytes are left, or a reference or string length has just been read, or a section size that does not fit, or (version 5) a negative bytes-section size; an arithmetic overflow needs a file of at least 64 MiB. The reader's own index, insert and conversion operations never panic.", "quantifier": "every byte sequence, every content of the error cell", "why_tests_cant": "All malformed files.", "anchors": ["crates/brass/src/code.rs: Code::read and everything it calls", "crates/brass/src/decoder.rs"]}
{"id": "C65", "title": "Exact value of every index encoding", "statement": "Decoding an index yields exactly the value its 1, 2 or 4 bytes denote under the reader's (non-HashLink) four-byte rule and consumes exactly those bytes; when the file ends first, a two-byte form without its second byte panics and every other cut form returns NoMoreData at the end of the file.", "quantifier": "every byte sequence and position", "why_tests_cant": "All 2^32 encodings and all truncations.", "anchors": ["crates/brass/src/decoder.rs: read_index"]}
{"id": "C66", "title": "Exactly the files of a declarative grammar are accepted, with exactly their meaning", "statement": "In a fresh process, Code::read(file) returns Ok(c) if and only if some beginning of the file is a spelling (any width of index encoding) of a module tree whose references are in range, and c is the module this tree denotes; the reader then stands just after that beginning and no error is recorded. Every departure of the reader from the HashLink format (four-byte indices, absolute lines, repeats, forward references, shifted name lookups, empty results) is part of the grammar and its meaning.", "quantifier": "every file of bytes shorter than 2^63, accepted or not", "why_tests_cant": "An equivalence over all files in both directions: tests can only sample files; the rejecting direction needs all of them.", "anchors": ["crates/brass/src/code.rs: Code::read and all its helpers", "crates/brass/src/decoder.rs: Decoder"]}
{"id": "C67", "title": "The module format is unambiguous", "statement": "If a file begins with two spellings of legal module trees, they are the same bytes and denote the same module (no spelling is a proper prefix of another); and all spellings of one tree are accepted as the same module whatever follows them.", "quantifier": "all pairs of module trees and spellings and all files", "why_tests_cant": "Quantifies over pairs of arbitrary parses.", "anchors": ["crates/brass/src/code.rs: Code::read and all its helpers", "crates/brass/src/decoder.rs: Decoder"]}
{"id": "C68", "title": "Which numbers an index can denote", "statement": "A number can be spelled as an index if and only if it is between -8191 and 8191, or it is a 32-bit value with v mod 256 >= 192: three quarters of all larger counts and references cannot be expressed.", "quantifier": "every integer", "why_tests_cant": "Needs all 2^32 encodings against all integers.", "anchors": ["crates/brass/src/code.rs: Code::read and all its helpers", "crates/brass/src/decoder.rs: Decoder"]}
{"id": "C69", "title": "Each type of an accepted module is determined by its entry, the earlier types and the name table", "statement": "In an accepted module, entry i of the type table is the meaning of the i-th spelled entry over exactly the entries 0..i-1 (references to itself or later entries give the default type) and over the strings given by the lookups of all names up to it.", "quantifier": "every accepted file and every type index", "why_tests_cant": "Ranges over all accepted files and type tables; type meaning is recursive over the table.", "anchors": ["crates/brass/src/code.rs: Code::read and all its helpers", "crates/brass/src/decoder.rs: Decoder"]}
{"id": "C70", "title": "Functions of an accepted module are exactly the spelled ones with the positions of their debug records", "statement": "In an accepted module, function i has the findex, instructions, type and registers of the i-th spelled function; with debug information its records run exactly to its last instruction and its debug table lists the (file, line) pairs they give under the reader's rules (repeats emit nothing, absolute lines are three or-ed bytes); without, it is empty.", "quantifier": "every accepted file and function", "why_tests_cant": "All record sequences of any length.", "anchors": ["crates/brass/src/code.rs: Code::read and all its helpers", "crates/brass/src/decoder.rs: Decoder"]}
{"id": "C71", "title": "Memory taken by a module's tables", "statement": "The tables of an accepted module other than the cache of names are bounded by the length of the file (each entry is paid for by at least its encoded size; type and global tables count double, and so do operand lists and debug tables of functions). The cache of names is bounded by the announced number of strings plus the file's length, and by nothing less: a 26-byte file makes it 2^31 - 1 places.", "quantifier": "every accepted file", "why_tests_cant": "Worst case over all files; the interesting ones are adversarial.", "anchors": ["crates/brass/src/code.rs: Code::read and all its helpers", "crates/brass/src/decoder.rs: Decoder"]}
{"id": "C72", "title": "Which of several errors is reported", "statement": "When a file has several defects the reader finds them in file order and reports a fixed one: a later one replaces an earlier one, except that running out of data in a table and unknown type kinds never replace an error. So the last negative header count is reported, the first unknown type kind is reported, and neither 'the first error is reported' nor 'the last error is reported' holds.", "quantifier": "every byte sequence and every error left by earlier reads; every header of every version with any encoding of its counts", "why_tests_cant": "All combinations of defects in a file and all histories of the process.", "anchors": ["crates/brass/src/code.rs: Code::read, check_error, map_err, get_type, read_type", "crates/brass/src/errors.rs: DecodeError"]}
{"id": "C73", "title": "Out-of-range type references", "statement": "A module with globals and no types crashes the reader at the first global whatever its index; in a module with types an out-of-range global reference is refused with an error at the last such reference, which also hides unknown type kinds found before.", "quantifier": "every table of one-byte types, every list of global references in any encoding", "why_tests_cant": "All table sizes and reference values, both signs and all encodings.", "anchors": ["crates/brass/src/code.rs: Code::read, check_error, map_err, get_type, read_type", "crates/brass/src/errors.rs: DecodeError"]}
{"id": "C74", "title": "Concurrent reads", "statement": "Reading modules in several threads gives each thread the result of reading its file alone, under every schedule, as long as every file leaves no error: the shared error cell is then never written. Every schedule ends, without deadlock. As soon as one file records an error this is false: beside it, every valid module is accepted under one schedule and refused under another; once recorded, an error stays for all threads.", "quantifier": "any number of threads, any files, any interleaving of their accesses to the shared error cell", "why_tests_cant": "The number of schedules is unbounded and a test run exercises one of them; races are timing dependent.", "anchors": ["crates/brass/src/code.rs: ERRORS, Code::read, Code::map_err, Code::check_error, UINDEX, get_type, read_string, read_ustring, read_opcode, debug_infos"]}
{"id": "C75", "title": "Signatures of natives and functions", "statement": "After hashing a module, each native's hot-reload signature is the CRC-32 of its library name, its name and its type's signature: it depends on nothing else in the module, and any change within four consecutive bytes of these is noticed. (The border between the two names is not hashed, so natives whose concatenated names agree collide.) A function's signature is the CRC-32 of its type's signature, class and method name, and the same of the function its field refers to; it panics exactly when field information is missing, as it is for every function of a file.", "quantifier": "every accepted module that can be hashed, every native in it, every function value of a declared type", "why_tests_cant": "All names, types, modules; and the absence of other dependencies is a relation between runs.", "anchors": ["crates/brass/src/code_hash.rs: CodeHash::hash_native, CodeHash::hash_fun_sign"]}
{"id": "C76", "title": "Setting up a module repeatedly", "statement": "Calling init any number of times on one module, with or without hot reload each time, succeeds iff one call would (and hashing is possible if it is asked for once); the declared data objects are those of a single call, the function tables are unchanged, the hash structure is there iff it was asked for, and each call adds one new pair of values per u8 global.", "quantifier": "every accepted module and every sequence of init calls", "why_tests_cant": "Unbounded histories of calls over all modules.", "anchors": ["crates/brass/src/compiler.rs: HLModule::init, HLModule::init_globals, HLModule::translate_global"]}
{"id": "C77", "title": "Placement is an exact function of request sizes", "statement": "For every sequence of requests and client stores, every heap answer is determined by the sizes of the requests, the header size and which system-allocator calls fail: the i-th answer is refusal, out of memory, or a fixed offset in a fixed block, as computed by a reference allocator that knows no addresses and no contents. In particular two heaps with blocks at different addresses place every object alike.", "quantifier": "every history of requests and arbitrary stores, every system allocator, every initial memory, every header type", "why_tests_cant": "Unbounded histories, and a relation between pairs of runs over all address layouts.", "anchors": ["crates/stickyimmix/src/heap.rs: StickyImmixHeap::alloc, alloc_array, find_space, BlockList::overflow_alloc", "crates/stickyimmix/src/bumpblock.rs: BumpBlock::inner_alloc, current_hole_size"]}
{"id": "C78", "title": "Reading a file takes a number of loop turns proportional to its size", "statement": "While reading, loops turn at most once per byte of the file, whatever it announces. (True of every file that is accepted, crashes, or is refused for another reason than missing data, up to two turns; violated by files cut inside their integer or float table: the error is recorded, not acted on, until the end of the announced table, so each missing number costs a turn: between missing and bytes read + missing + 1 turns in every case. A 16-byte file costs 2^31 - 1 turns. Such a file is refused with NoMoreData at the first missing number after exactly one error per missing number.)", "quantifier": "every byte sequence, every earlier error, every outcome; every file of every version cut inside its integer or float table, every encoding of its counts", "why_tests_cant": "Ranges over all byte sequences, all announced counts up to 2^31 - 1 and all cut points.", "anchors": ["crates/brass/src/code.rs: Code::read, read_ints", "crates/brass/src/decoder.rs: decode_i32, Error::map_error"]}
{"id": "C79", "title": "Memory owned by types and strings", "statement": "The strings and debug-file names of an accepted module take at most three times the size of its file. Its types do not: every reference to a type is an owned copy, so 6n + 19 bytes make a valid module whose last type owns 2^(n+1) - 1 type values, and 3n + 21 bytes hold n*n bytes of names; no type owns more than 2^length type values.", "quantifier": "every accepted file; every n up to the format's limits", "why_tests_cant": "Asymptotic claims over all files; the bad files cannot even be loaded.", "anchors": ["crates/brass/src/types.rs: ValueType, ValueTypeU, ObjField, EnumConstruct", "crates/brass/src/code.rs: Code::get_type, Code::read_type, Code::get_ustring, Code::read_strings"]}
{"id": "C80", "title": "Every outcome depends only on the bytes consumed", "statement": "Reading a file - whether it ends with a module, an error or a crash - looks at a prefix of it: any other file of the same length with that prefix gives the same result, the same reported error and position, and the same error state for later reads.", "quantifier": "every byte sequence, every prior error state, every replacement of the unread bytes", "why_tests_cant": "Ranges over all files, including all failing ones, and all replacements of their tails.", "anchors": ["crates/brass/src/code.rs: Code::read and all its helpers", "crates/brass/src/decoder.rs: Decoder::read_bytes, advance, read_index"]}
{"id": "C81", "title": "The build profile does not change what is read", "statement": "Compiled with or without arithmetic overflow checks, Code::read gives the same outcome (module, error or crash) and the same error state for every file below 64 MiB, and for every file of any size that the checked build accepts or refuses without an overflow crash. (Beyond that size it is false: a debug section can push a line number past 2^31, which crashes the checked build and yields a negative line in the other.)", "quantifier": "every byte sequence, every prior error state, both build profiles", "why_tests_cant": "Tests run in one profile on small files; the claim compares two programs on all inputs, and the smallest counterexamples have hundreds of millions of bytes.", "anchors": ["crates/brass/src/code.rs: Code::debug_infos (curline += ...), Code::read", "Cargo.toml: profiles (none set: debug checks overflow, release wraps)"]}
{"id": "C82", "title": "What happens to a truncated file", "statement": "A file that Code::read accepts, cut short anywhere inside the part it uses, is never accepted, and where the cut falls determines the outcome: inside the integer or float table it is refused with NoMoreData at the first missing number; inside the size of the bytes section it is refused with NoMoreData at that section, leaving no error in the error state; inside the text of a string table or of the debug-file names, inside the bytes block, and everywhere else (magic, version, counts, sizes, types, globals, natives, functions, debug records, constants) the reader crashes. (So 'a truncated file is refused with an error' is false; a file with at least one type that has lost its last useful byte always crashes the reader.)", "quantifier": "every file the reader accepts (every module, every spelling of it) below 2^63 bytes, and every cut point", "why_tests_cant": "Ranges over all valid files and every one of their proper prefixes (every crash point of a writer); tests can only cut a few sample files.", "anchors": ["crates/brass/src/code.rs: Code::read and all its helpers (the unwraps, the slice in read_strings, map_err)", "crates/brass/src/decoder.rs: Decoder::read_bytes, advance"]}
{"id": "C83", "title": "What happens to dangling references", "statement": "A file that is spelled correctly but refers to strings or types that do not exist is refused with InvalidStringIndex or InvalidTypeIndex at the byte after the last dangling reference of the section reached: for type entries and globals whatever follows the globals; for natives, when types and globals are sound and the string table is complete; for the type and the registers of the last function (no debug information), when everything before is sound. The same error is left in the error state. An object whose super type index is beyond the table built so far crashes the reader instead. (For a function that is not the last, 'refused with an error' is false: its instructions are then taken for the next function, and the reader may crash.)", "quantifier": "every file spelled by the grammar, every set of dangling references in its types, globals, natives or last function, and any bytes after them", "why_tests_cant": "Ranges over all files and all combinations of dangling references; the claim fixes the kind and exact byte of the reported error and says that nothing after the references matters.", "anchors": ["crates/brass/src/code.rs: Code::get_type, get_ustring, read_type, read_function, read", "crates/brass/src/decoder.rs: Decoder::ERRORS handling"]}
{"id": "C84", "title": "The outcome of reading is known for every byte sequence", "statement": "In a fresh process, Code::read(file) returns Err(e) and leaves a given error in the error state if and only if the file is refused in the sense of a declarative list of faults: wrong magic bytes or version (reported at once, nothing recorded), then section by section: negative counts, missing numbers, invalid type kinds, dangling string and type references, unknown opcodes, debug files and ranges. A section in which faults are found is refused with the error that survives (the last one recorded, except that missing numbers and unknown type kinds do not replace an earlier error), which is also left in the error state; nothing after that section matters. In a function section, instructions of the functions after a fault are not read. Together with the grammar of accepted files this decides every input: it denotes a module, it is refused, or the reader crashes, and the three cases exclude each other.", "quantifier": "every byte sequence shorter than 2^63, every error, every error state afterwards", "why_tests_cant": "An equivalence over all byte sequences, malformed ones included; fuzzing can only sample them and has no oracle for which error is due.", "anchors": ["crates/brass/src/code.rs: Code::read and all its helpers", "crates/brass/src/decoder.rs: Decoder, Error handling"]}
{"id": "C85", "title": "Table entries copied while reading are bounded by the file", "statement": "Reading a file of L bytes copies (clones) a number of table entries proportional to L. The code violates this: the whole module under construction is cloned twice for every type, global and function and once for every native and constant, and the type, string and name tables at every reference. What holds, for every byte sequence: nothing is copied unless the header is complete; then, if the header announces n strings, types and globals in all, at most 3*(n + 2L) entries per byte consumed are copied, plus once that amount when reading fails; for an accepted file announcing k strings at most 3L(k + 3L). The bound has the right order in both arguments: there is an accepted file of 23 bytes for which 4294967301 entries are copied, and for every n a four-byte count can denote an accepted file of n + 22 bytes for which 3n(n+2) entries are copied (an exact formula holds for a two-parameter family).", "quantifier": "every byte sequence, whatever error is pending in the process, accepted or refused or crashing", "why_tests_cant": "A worst-case cost bound over all inputs, including malformed ones; and its tightness.", "anchors": ["crates/brass/src/code.rs: Code::read (clones at the end of each section's loop), read_string, get_ustring, get_type, read_type"]}
{"id": "C86", "title": "Vector entries allocated while reading are paid for by the file", "statement": "The number of entries the reader writes with vec![x; n] (string cache, type and global tables, byte block, operand lists, debug tables) while reading a file of L bytes is proportional to L. The code violates this in two places, and only there. For every byte sequence: nothing is written if the header is incomplete; if it announces k strings, at most k + 2*(bytes consumed) entries are written when the read returns (module or error), and an accepted file writes at least k; if the read crashes, at most 2*(2^31-1) more, since at most one vector can be unpaid. An accepted file of 26 bytes has 2147483647 entries written; a file of 31 bytes announcing no strings has 4294967295 written before the reader crashes.", "quantifier": "every byte sequence, whatever error is pending in the process, accepted or refused or crashing", "why_tests_cant": "A worst-case allocation bound over all inputs, including malformed ones, for every way the read can end.", "anchors": ["crates/brass/src/code.rs: Code::read (vec! for ustrings, bytes, types, globals), read_opcode (extra), debug_infos"]}
{"id": "C87", "title": "Exact work of an accepted file", "statement": "Reading an accepted file turns the reader's loops exactly once for every entry of every list that the file's tree contains (numbers, strings, byte positions, debug files, types with their arguments, fields, prototypes, bindings, constructors and parameters, globals, natives, functions with their registers, instructions, operand lists, debug records and assignments, constants with their fields), and writes with vec![x; n] exactly one entry per announced string, byte, type, global and list operand, and two per instruction when there is debug information. So the work depends only on the tree: not on how its numbers are spelled, on the bytes after it, or on the values in it.", "quantifier": "every accepted file, i.e. every tree with references in range, every spelling of it, every trailing bytes", "why_tests_cant": "An exact cost formula over all trees and all spellings; a test counts a few files.", "anchors": ["crates/brass/src/code.rs: Code::read, read_type, read_strings, read_opcode, read_function, debug_infos"]}
{"id": "C88", "title": "Comparisons made by hot-reload hashing", "statement": "CodeHash::alloc finds the hash of a type by comparing it with the entries of the type table, in order, until one is equal. On an accepted module it makes exactly these lookups (if it returns; fewer if it panics): for every declared type the types it mentions, for every global its type (twice if abstract), and every class, struct and enum type. Comparing two equal types takes as many type comparisons as the type owns values, two different ones as many as they own up to the first difference. So hashing is exponential: 6n + 25 bytes make a valid, hashable module that takes at least 2^(n+1) - 2 comparisons; it never takes more than 4 L^2 2^L for a file of L bytes. hash_fun looks up the types of the registers and those named by type instructions, hash_native and hash_fun_sign one type, whatever the outcome; finalize stops after the lookup of the first function's type.", "quantifier": "every accepted file, whether hashing returns or panics; every pair of types; every n up to the format's limits", "why_tests_cant": "Counts over all modules and an asymptotic lower bound; the bad files cannot even be loaded in practice.", "anchors": ["crates/brass/src/code_hash.rs: CodeHash::alloc, hash_type_rec, code_hash_type, hash_fun, hash_fun_sign, hash_native, finalize", "crates/brass/src/types.rs: derived PartialEq of ValueType, ValueTypeU, ObjField, EnumConstruct"]}
{"id": "C89", "title": "How deep the recursive functions on types go", "statement": "Cloning, dropping or comparing a ValueType calls itself for every type stored in it. Clone returns an equal value; Clone and Drop nest exactly as many calls as the longest chain of types inside types; == nests no more than either operand has, and exactly as many if they are equal. In an accepted module the type at index i is nested at most i + 2 deep, every type stored anywhere in the module at most (number of types) + 1, which is at most the length of the file plus 1. Nothing smaller limits it: for every n up to 8191 a valid file of at most 3n + 18 bytes has a type nested n + 1 deep (and owning only n + 1 types), so recursion over types is as deep as the file is long.", "quantifier": "every type, every pair of types; every accepted file and every type stored in the module; every n up to the format's limits", "why_tests_cant": "Recursion depth over all values and all files; a bound in the size of the file and that it is reached.", "anchors": ["crates/brass/src/types.rs: ValueType, ValueTypeU, ObjField, EnumConstruct (derive Clone, PartialEq; drop)", "crates/brass/src/code.rs: Code::read_type, Code::read"]}
{"id": "C90", "title": "Which functions hot reload cannot tell apart", "statement": "Two functions of accepted modules with the same number of registers and no string operands are hashed from the same bytes exactly if their register types have equal signatures and their instructions agree opcode by opcode and operand by operand in what they denote (types by signature, float constants by truncation to 32 bits, callees by hash); so if hash_fun returns the same value for both, they are alike in this sense or exhibit a CRC-32 collision. Functions that are alike always get the same hash: replacing a primitive register type by another primitive is never noticed. Without the two provisos this fails (refuted): loading the string \"...b\" hashes like loading \"...\" followed by a Nop, and nine more primitive registers hash like four leading Mov 0, 0.", "quantifier": "every pair of accepted modules, every pair of functions, every table of known function hashes", "why_tests_cant": "Injectivity of the byte stream ranges over all pairs of functions.", "anchors": ["crates/brass/src/code_hash.rs: CodeHash::hash_fun, hfun", "crates/brass/src/types.rs: ValueType::hash"]}
{"id": "C91", "title": "How deep into a type hot reload looks", "statement": "A type's inner hash, its hash and its hot-reload signature look at one, two and three levels of types: if two types agree on that many levels (same class of kind, same names, counts and field names; primitives all alike) they are equal, whatever lies below. So a change four levels down does not change the signature, and two function types with the same number of arguments, all types primitive, are never told apart. Conversely, two declared types of accepted modules of the same class with the same names have the same hash only if they have the same counts and field names and mention types with pairwise equal inner hashes, or exhibit a CRC-32 collision.", "quantifier": "every pair of types; for the converse, every pair of declared types of accepted modules", "why_tests_cant": "Ranges over all pairs of types.", "anchors": ["crates/brass/src/types.rs: ValueType::hash", "crates/brass/src/code_hash.rs: CodeHash::alloc, hash_type_rec, code_hash_type"]}
{"id": "C92", "title": "Types copied when a module is hashed for hot reload", "statement": "CodeHash::alloc of an accepted module copies a number of types (every clone, with all a type owns) that is an explicit function of the module: the module once; the whole function, native and global table once per function, native and global; the whole type table twice per type; and the copies of entries, fields, arguments and constructors. It is exact if alloc returns and an upper bound if it panics. ValueType::hash of a declared type copies what it mentions once or twice, and in turn what hash(true) of those copies. So the number grows with the square of the number of types, globals, functions and natives, and (violated) it is exponential in the size of the file: at most 6n+25 bytes, valid and hashable, make alloc copy at least 2(n+1)(2^(n+1)-1) types. CodeHash::finalize copies every function twice and every native once, or fewer if it panics.", "quantifier": "every file the reader accepts; for the refutation, every n below 8191", "why_tests_cant": "An exact cost and its growth range over all modules; the exponential case cannot be run.", "anchors": ["crates/brass/src/code_hash.rs: CodeHash::alloc, hash_type_rec, finalize", "crates/brass/src/types.rs: ValueType::hash, derived Clone of ValueType, ValueTypeU, HLFunction"]}
