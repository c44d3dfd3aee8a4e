# Formal model of darmie/brass_vm in Rocq (Coq 8.16.1)

## 1. Shape of the development

`rocq/theories/`, in dependency order. *Model* files hold executable Gallina only (no proofs), each definition
citing the lines of `/repo` it models. *Spec* files hold the vocabulary of the statements and do not use the
model's helpers. `Props*.v` hold the property theorems (plus the short lemmas used only there) with
non-vacuity `Example`s (`C??_ex*`, `*_met`).

| file | kind | content |
|---|---|---|
| `Prelude.v` | model | outcomes of Rust calls (`Ok`/`Err`/`Panic` + panic reason), `Vec` operations as list functions |
| `StdModel.v` | model | library functions outside /repo: `String::from_utf8_lossy`, string slicing, CRC-32 (crc32fast) |
| `ImmixModel.v` | model | all of `crates/stickyimmix/src` |
| `ImmixSpec.v` | spec | extents, histories (`reach`), holes, system-allocator contract (`sys_ok`) |
| `ImmixBlockProofs.v`, `ImmixHeapProofs.v`, `ImmixHistoryProofs.v` | proofs | one block; heap invariant; histories |
| `PropsImmix.v`, `PropsImmix2.v`, `PropsPlace.v` | theorems | C01-C22; C60-C62; C77 |
| `BrassTypes.v` | model | data of `types.rs`, `op.rs`, `native.rs`, `errors.rs`, record `Code` |
| `DecoderModel.v`, `CodeModel.v` | model | `decoder.rs`; `code.rs` (state monad over decoder + error cell) |
| `FormatSpec.v` | spec | the HashLink format as an *encoder* from abstract modules, written from the format |
| `ReaderSpec.v`, `AcceptSpec.v` | spec | reading an encoding, positions; what an accepted module looks like |
| `ErrSpec.v` | spec | what errors and crashes mean in terms of the file's bytes |
| `GrammarSpec.v` | spec | the language the reader accepts and the module each file denotes, as a grammar |
| `CodeGenericProofs.v`, `Utf8Proofs.v`, `FormatProofs.v`, `StringsProofs.v`, `TypesProofs.v`, `OpsProofs.v`, `ModuleProofs.v` | proofs | compositional facts; reading encodings |
| `ReaderPost.v`, `ReaderSizes.v`, `ReaderTables.v`, `AcceptProofs.v` | proofs | Hoare logic for error-free runs, postconditions of `Code::read` |
| `ErrProofs.v`, `ErrExact.v`, `ErrReturn.v` | proofs | every error/crash explained; exact runs of failing files |
| `GrammarDen.v`, `GrammarTypes.v`, `GrammarFuns.v`, `GrammarStrings.v`, `GrammarPhases.v`, `GrammarPhases2.v`, `GrammarNames.v`, `GrammarModule.v`, `GrammarCode.v` | proofs | reader = grammar |
| `PropsDecoder.v`, `PropsReader.v` (and `PropsNames.v`: C36 exactly), `PropsModule.v`, `PropsErr.v`, `PropsGrammar.v`, `PropsCost.v`, `PropsSize.v`, `PropsLocal.v`, `PropsProfile.v`, `PropsCut.v`, `PropsBad.v`, `PropsBad2.v` | theorems | C23-C26; C27-C36; C37-C45, C54-C56; C63-C65, C72, C73; C66-C71; C78; C79; C80; C81; C82; C83 |
| `PropsExact.v`, `PropsSticky.v` | theorems | exact conditions (iff) for C17, C25, C28, C31, C32, C35, C45; C42 |
| `OutcomeSpec.v` | spec | every way in which a file can be refused, with the error and the error cell afterwards |
| `OutcomeLay.v`, `OutcomeParts.v`, `OutcomeCode.v`, `OutcomeFuns.v`, `OutcomeStrings.v`, `OutcomeLoops.v`, `OutcomeModule.v`, `OutcomeFront.v` | proofs | runs with faults = item sequences of the shapes |
| `PropsOutcome.v` | theorems | C84; C44 |
| `CostCopies.v`, `CostSections.v`, `CostWhole.v`, `CostExact.v`, `PropsCopies.v` | proofs, theorems | entries cloned by the reader; C85 |
| `CostFill.v`, `CostCrash.v`, `PropsFill.v` | proofs, theorems | entries written by `vec![x; n]`; C86 |
| `WorkSpec.v`, `CostWork.v`, `CostPhases.v`, `CostFuns.v`, `PropsWork.v` | spec, proofs, theorems | the exact number of turns and of entries written, from the tree; C87 |
| `CutSpec.v`, `CutProofs.v`, `CutPieces.v` | spec, proofs | the pieces of a file and the outcome of a cut in each; runs on truncated input |
| `BadSpec.v`, `BadProofs.v`, `BadHead.v` | spec, proofs | the grammar with its references marked; runs on files with dangling references |
| `ReleaseModel.v` | model | the functions of `code.rs` that can overflow, with wrapping arithmetic |
| `CostModel.v`, `CostProofs.v`, `CostTurns.v`, `CostQuiet.v`, `PropsTurns.v` | model, proofs, theorems | the reader counting its loop turns, the table entries it clones and the entries it writes with `vec![x; n]`; C78 |
| `ConcModel.v`, `ConcProofs.v`, `PropsConc.v` | model, proofs, theorems | several threads sharing `static mut ERRORS`; C74 |
| `HashModel.v`, `HashSpec.v`, `FunHashSpec.v`, `CrcSpec.v` | model, spec | `ValueType::hash`, `code_hash.rs`; the byte strings that are meant to be hashed; CRC-32 |
| `CrcProofs.v`, `CrcStandard.v`, `HashProofs.v`, `HashAlloc.v`, `HashPanics.v` | proofs | CRC-32 as a linear map; exact run of `CodeHash::alloc`; which panics hashing can raise |
| `PropsHash.v`, `PropsFunHash.v`, `PropsSign.v` | theorems | C46-C52, C57; C58, C59; C75 |
| `BlindSpec.v`, `PropsBlind.v`, `TypeBlindSpec.v`, `PropsTypeBlind.v` | spec, theorems | which functions and which types share a hash; C90, C91 |
| `HashCopySpec.v`, `HashCopyModel.v`, `PropsHashCopy.v` | spec, model, theorems | types cloned by `CodeHash::alloc` and `finalize`; C92 |
| `HashCostModel.v`, `HashCostSpec.v`, `HashCostProofs.v`, `HashCostAlloc.v`, `HashCostFlat.v`, `PropsLookup.v` | model, spec, proofs, theorems | `code_hash.rs` counting the types it compares; C88 |
| `TypeDepthModel.v`, `DepthSpec.v`, `DepthProofs.v`, `PropsDepth.v` | model, spec, proofs, theorems | derived Clone/PartialEq and drop of types, with the depth of their recursion; C89 |
| `CompilerModel.v`, `PropsCompiler.v` | model, theorems | `compiler.rs`; C53, C76 |
| `Assumptions.v` | check | `Print Assumptions` for every property theorem (generated by `gen_manifest.py`) |

`ConcModel.v` is generated by `gen_conc.py` from `DecoderModel.v` and `CodeModel.v` (the same program text over
the threaded monad), so it cannot drift from the sequential model; `C74_alone` proves the two agree.
`CostModel.v` is generated by `gen_cost.py` from `CodeModel.v` in the same way (the same program text with counters
at loops, at `clone()` and at `vec![x; n]`); `C78_same` proves that counting does not change the reader.  Not counted:
the work inside one entry (the text of a string, the types inside a type), `String::from_utf8_lossy`, and the
shifting of entries by `Vec::insert`.
`HashCostModel.v` is generated by `gen_hashcost.py` from `HashModel.v` (same text in a counting monad); `C88_counts` proves the outcomes equal.

## 2. How each property is modelled and proved

Allocator (`stickyimmix`)

* C01, C02: pure functions; closed form with `lia` and bit lemmas; the overflow case is a panic.
* C03-C12, C19-C21: the heap is a state machine over client operations (`alloc`, `alloc_array`, stores into own
  objects, failing or not). State: block list *and* byte memory. The system allocator is an input, constrained
  only by `sys_ok` (fresh, aligned, disjoint from live blocks, or null). Invariant by induction over `reach`.
* C13: the loop computes a declarative "first usable hole" relation, sound and complete.
* C14-C17: invariant over arbitrary request lists on one block with arbitrary marks. C17 is false when line 0 is
  unmarked (refuted for every such mark pattern).
* C18, C22: decision theorem; ownership state of `Block` (C22 refuted: `into_mut_ptr` frees the block).
* C60: mark history -> flags. C61: pointer equality = same allocation. C62: footprint accounting.
* C77: refinement of a reference allocator without addresses or contents (no assumption on the system allocator).

Reader (`decoder.rs`, `code.rs`)

* C23-C26, C65, C68: equations for every buffer; little-endian and index encoders are independent of the model.
* C24, C38, C39, C80: locality: every action depends only on bytes consumed; proved compositionally for all of `code.rs`.
* C27, C42, C43, C63, C72: the error cell is threaded through every run; `d_log` is a ghost list of all errors found
  (written by the model wherever the code assigns or offers an error; never read by it).
* C28-C37: round trip against the encoder of `FormatSpec.v`; refutations quantify over all values of the bad class.
* C40, C41, C45, C54-C56: postconditions of `Code::read` for arbitrary input.
* C44, C64, C73, C78: crashes and cost: refuted claims with exact characterisations.
* C66, C67, C69, C70, C71: `Code::read` accepts exactly the grammar of `GrammarSpec.v` with exactly its meaning (iff);
  unambiguity, dependency of entries, positions and size bounds are corollaries.
* C79: size of owned type trees: exact on a family of valid modules (exponential), upper bound by induction over the grammar.
* C81: simulation between the checked and the wrapping program, action by action.
* C82: compositional: on any proper prefix of the bytes an error-free run uses, each reader function stops in a fixed way; runs are
  split into the pieces of the grammar of C66.
* C83: the grammar with references marked (`BadSpec.v`); a compositional relation between marked pieces and the errors recorded while
  reading them (`BadProofs.v`), run from the exact state after the head (`BadHead.v`).
* C85: a potential (entries of the module under construction, announced entries still missing, two per byte left) that never grows, so each of at most three clones per consumed byte costs at most the initial potential; exact run of a family of files for the lower bounds.
* C86: every vector is followed by a loop that reads at least one byte per entry (two entries per byte for debug tables), except the string cache; a state invariant bounds the counts, hence the one vector that a crash can leave unpaid; two concrete files for tightness.
* C87: a weakest-precondition calculus for a meter `al*turns + be*filled` gives the cost of each part as a function of its result; the grammar's denotations (C66) give the results; the two meters (1,0) and (0,1) give the two counts.
* C88: each lookup's cost is known whatever its outcome, so a judgement "at most n, exactly n if the result is normal" composes through all of `alloc`; nested induction over types for the cost of one comparison (a type flattened into items; comparing = walking the common prefix); the family of C79 for the lower bound.
* C89: depth as a maximum over owned types, proved equal to the longest ownership chain by induction along ownership; the invariant "type i is at most i + 2 deep" over the type table; a chain of references reaches it.
* C90: left-to-right decodability of the byte string of C58 (widths fixed by the opcode and the operands already read), for functions without string operands; counterexamples for strings and register counts.
* C91: agreement on n levels gives equal serialisations, by the class of the kind; the serialisation of C47 is decodable for types with the same names.
* C92: code_hash.rs once more in the counting monad of C88, with a step for every `.clone()`; per loop, an amount that is exact on normal return and an upper bound otherwise.
* C84, C44: faults as marked items of the file (`OutcomeSpec.v`); a logic `lays` (OutcomeLay.v) relating every run of a reader function, faults
  included, to the item sequences of a shape, in both directions; phases are joined by `refuses` (OutcomeModule.v, OutcomeFront.v).
* C74: threads step at each access to the shared error cell; theorems quantify over all schedules.

Hot-reload hashing and set-up (`types.rs::hash`, `code_hash.rs`, `compiler.rs`)

* C46: CRC-32 is the polynomial remainder of `CrcSpec.v` (existence and uniqueness, C46_standard); as a linear map over GF(2): incremental,
  burst errors up to 32 bits.
* C47, C48, C57: the bytes fed to CRC-32 are exactly those of `HashSpec.v`; collisions of kinds refute C48.
* C49-C52, C59, C75: exact run of `CodeHash::alloc` (succeeds iff `hashable`), of `hash_fun`, `hash_native`,
  `hash_fun_sign`, `finalize`.
* C58: a function's hash is the CRC-32 of the byte string of `FunHashSpec.v`.
* C53, C76: `HLModule::init` as a decision on the accepted module; induction over sequences of `init`.

Theorems named `*_refuted` show that the unchanged code violates the property one would expect; `*_iff` and `*_exact`
give the condition under which it does hold, and that is what properties.jsonl states for those claims (the expected
property is kept there in parentheses); `*_partial` mark what is proved of a property that is not settled in full.
`MANIFEST.json` gives the theorems per property.

## 3. Trusted base

* Coq 8.16.1's kernel (the build is re-checked by `coqchk`).
* Axioms: none. `Assumptions.v` prints "Closed under the global context" for each of the property theorems.
  `coqchk` also lists 7 constants of `Coq.ssr.ssrunder.Under_rel` (a module type of the standard library loaded
  through `ZifyBool`); no theorem depends on them. No other library than Coq's standard one is used.
* The reading of the Rust code recorded in the comments of the model files (each file was re-read against the
  model after it was written), and the treatment of the items in section 4.
* The specification files named above.

Validation of the model (tests, not proofs): run by `vm_compute` on `example/bin/test.hl` it panics at position 41835
(`InvalidDebugFile`) because of the repeat-record bug below; with only that bug repaired in a scratch copy the
whole file parses and ends at 41838, its length. CRC examples agree with Python's `zlib.crc32`.

## 4. What is modelled, what is not

Modelled, function by function: `allocator.rs`, `blockalloc.rs`, `blockmeta.rs`, `bumpblock.rs`, `constants.rs`, `heap.rs`,
`rawptr.rs`; `code.rs`, `decoder.rs`, `types.rs` (data and `hash`), `op.rs`, `native.rs`, `errors.rs`, `code_hash.rs`, `compiler.rs`.
(`main.rs` is empty, `lib.rs` only declares modules.)

Simplifications and limits:

* 64-bit little-endian target; debug-profile arithmetic (overflow panics) where the code uses plain `+`/`-`/`*`.
  `ReleaseModel.v` is the reader in the release profile (C81); the allocator's checked sums cannot overflow for legal requests (C03).
* Enums `Op` and `TypeKind` are represented by their discriminants (values outside the range are rejected as in the code).
* Values are copied where the code clones; `Box`/`Vec` are values and lists. Running out of memory in `Vec`/`Box`/`String`
  and stack overflow of the recursive `Debug`/`hash` are not modelled. `println!` is dropped.
* Panics end a run (no unwinding); what later reads in the same process see (the sticky error cell) is modelled.
* Cranelift is reduced to the table of declared data objects and the values given to globals.
* Rust's memory model: accesses to `static mut ERRORS` are sequentially consistent steps. (In Rust two unsynchronised accesses, one
  a write, are undefined behaviour; C74 proves that runs recording no error never write the cell.)
* Object destructors are never run by the heap; the model does not track what payload bytes own.
* Allocator theorems assume `sys_ok` and payload/header sizes below 2^62 (`op_legal`, `hdr_ok`), except C77, which needs no `sys_ok`.

## 5. Findings (code violates the property; theorem in brackets)

Allocator
* `Block::into_mut_ptr` runs the destructor: the returned pointer dangles, and the later free is double (C22).
* A recycled block with line 0 free hands out its metadata word (C17); the heap never recycles, so C11 still holds.
* Alignments above 8, and headers whose size is no multiple of 8, are not respected (C10). Zero-sized payloads may
  point one past their block (C12).

Reader
* Four-byte indices drop high bits: no value >= 8192 round-trips (C25, C28; exact values C65, C68).
* Operands beyond the fixed ones in variadic instructions are mis-read (C31).
* Debug repeat records and absolute lines >= 256 are wrong (C32); this breaks the repository's own `test.hl`.
* Type references to later or same entries yield the placeholder (C35); natives/globals out of range crash or take type 0 (C73).
* The name cache is filled by insertion, so out-of-order first uses shift earlier names (C36; exactly which: C36_iff); it takes memory up to 2^31
  places for a 26-byte file (C71).
* The error cell is never cleared: after one bad file every later file is refused (C42), in every thread (C74);
  assignments and `map_err` disagree on whether the first or last error is kept (C72).
* Types own copies of the types they refer to: a valid file of 6n+19 bytes needs 2^(n+1)-1 type values (C79).
* Hot-reload hashing finds types by structural comparison of those copies: exponential in the size of the file (C88).
* Clone, drop and == recurse as deep as types nest, and a file of 3n + 18 bytes nests them n + 1 deep: a stack overflow for large n (C89).
* A function whose type or register types do not exist is not skipped: its instructions are read as the next function (C83).
* A valid file that is cut short crashes the reader, except for cuts in the number tables and in the size of the bytes section (C82).
* Malformed files crash in many ways (exactly which: C44_crash_iff with C66 and C84; C64) and a 16-byte file costs 2^31-1 loop turns (C78).
* The module under construction is cloned twice per type, global and function: quadratic, and 2^32 entries for a 23-byte file (C85).
* `vec![None; nstrings]` and the vectors allocated just before a crash are not backed by bytes of the file: 2^31-1 entries for 26 accepted bytes, 2^32-1 for 31 crashing bytes (C86).
* Modules without types, constants and debug info come back empty; debug file lengths are dropped (C45).

Hashing
* The kind of a type is not hashed; primitives all hash to 0 (C48). Library and name of a native are hashed without a border (C75).
* `CodeHash::alloc` panics on many accepted modules (C50), `finalize` on every one (C52), functions with callees (C59), and
  function signatures need field information the reader never supplies (C75). Float constants are looked up at the wrong place (C58).
* Strings and registers run into the instructions behind them in the bytes that are hashed, and primitive register types are all alike: different functions
  get the same hash (C90).
* Type signatures look three levels deep only; changes below are not noticed (C91).
* `CodeHash::alloc` clones whole tables inside its loops: quadratic always, exponential in the file size for nested function types (C92).

## 6. Tests against wrong programs

`seeded/LOG.jsonl`: one line per seeded bug (definition, edit, claim it breaks, theorems that failed, theorems tightened).
