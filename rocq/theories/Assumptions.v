(** What each property theorem rests on; generated by /verif/gen_manifest.py from MANIFEST.json.
    The build prints "Closed under the global context" for every one. *)
From Verif Require PropsBad PropsBad2 PropsBlind PropsCompiler PropsConc PropsCopies PropsCost PropsCut PropsDecoder PropsDepth PropsErr PropsExact PropsFill PropsFunHash PropsGrammar PropsHash PropsHashCopy PropsImmix PropsImmix2 PropsLocal PropsLookup PropsModule PropsNames PropsOutcome PropsPlace PropsProfile PropsReader PropsSign PropsSize PropsSticky PropsTurns PropsTypeBlind PropsWork.
Print Assumptions Verif.PropsImmix.C01_rounding.
Print Assumptions Verif.PropsImmix.C01_least.
Print Assumptions Verif.PropsImmix.C01_overflow.
Print Assumptions Verif.PropsImmix.C02_size_classes.
Print Assumptions Verif.PropsImmix.C03_decision.
Print Assumptions Verif.PropsImmix.C04_failure_changes_nothing.
Print Assumptions Verif.PropsImmix.C05_no_overlap.
Print Assumptions Verif.PropsImmix.C06_contents.
Print Assumptions Verif.PropsImmix.C06_step.
Print Assumptions Verif.PropsImmix.C06_store.
Print Assumptions Verif.PropsImmix.C07_arrays_zero.
Print Assumptions Verif.PropsImmix.C08_header_address.
Print Assumptions Verif.PropsImmix.C08_inverse.
Print Assumptions Verif.PropsImmix.C09_header_contents.
Print Assumptions Verif.PropsImmix.C10_alignment.
Print Assumptions Verif.PropsImmix.C10_not_aligned_refuted.
Print Assumptions Verif.PropsImmix.C11_meta_word.
Print Assumptions Verif.PropsImmix.C12_mask.
Print Assumptions Verif.PropsImmix.C12_empty_refuted.
Print Assumptions Verif.PropsImmix.C13_hole_search.
Print Assumptions Verif.PropsImmix.C14_live_lines_safe.
Print Assumptions Verif.PropsImmix.C15_first_fit.
Print Assumptions Verif.PropsImmix.C16_fresh_capacity.
Print Assumptions Verif.PropsExact.C17_iff.
Print Assumptions Verif.PropsImmix.C17_line0_marked_partial.
Print Assumptions Verif.PropsImmix.C17_line0_unmarked_refuted.
Print Assumptions Verif.PropsImmix.C18_block_new.
Print Assumptions Verif.PropsImmix.C19_placement.
Print Assumptions Verif.PropsImmix.C20_waste_bound.
Print Assumptions Verif.PropsImmix.C20_head_retired.
Print Assumptions Verif.PropsImmix.C21_no_leak.
Print Assumptions Verif.PropsImmix.C22_into_mut_ptr_refuted.
Print Assumptions Verif.PropsDecoder.C23_value.
Print Assumptions Verif.PropsDecoder.C23_short.
Print Assumptions Verif.PropsDecoder.C23_unique.
Print Assumptions Verif.PropsDecoder.C23_roundtrip.
Print Assumptions Verif.PropsDecoder.C24_functions.
Print Assumptions Verif.PropsDecoder.C24_whole_read.
Print Assumptions Verif.PropsDecoder.C25_short_partial.
Print Assumptions Verif.PropsDecoder.C25_short_unsigned_partial.
Print Assumptions Verif.PropsDecoder.C25_long_refuted.
Print Assumptions Verif.PropsExact.C25_iff.
Print Assumptions Verif.PropsDecoder.C26_complete.
Print Assumptions Verif.PropsDecoder.C26_short.
Print Assumptions Verif.PropsReader.C27_negative.
Print Assumptions Verif.PropsReader.C27_nonnegative.
Print Assumptions Verif.PropsReader.C27_result.
Print Assumptions Verif.PropsReader.C27_accepted.
Print Assumptions Verif.PropsReader.C27_log_grows.
Print Assumptions Verif.PropsReader.C27_header.
Print Assumptions Verif.PropsExact.C28_iff.
Print Assumptions Verif.PropsReader.C28_roundtrip_partial.
Print Assumptions Verif.PropsReader.C28_long_refuted.
Print Assumptions Verif.PropsReader.C29_strings.
Print Assumptions Verif.PropsReader.C29_module.
Print Assumptions Verif.PropsReader.C29_wellformed_kept.
Print Assumptions Verif.PropsReader.C29_unique.
Print Assumptions Verif.PropsReader.C30_roundtrip.
Print Assumptions Verif.PropsReader.C30_exact.
Print Assumptions Verif.PropsReader.C30_invalid.
Print Assumptions Verif.PropsReader.C30_arity.
Print Assumptions Verif.PropsExact.C31_iff.
Print Assumptions Verif.PropsReader.C31_refuted.
Print Assumptions Verif.PropsReader.C31_fixed_partial.
Print Assumptions Verif.PropsReader.C31_module.
Print Assumptions Verif.PropsExact.C32_iff.
Print Assumptions Verif.PropsReader.C32_roundtrip_partial.
Print Assumptions Verif.PropsReader.C32_repeat_refuted.
Print Assumptions Verif.PropsReader.C32_line_refuted.
Print Assumptions Verif.PropsReader.C33_terminates.
Print Assumptions Verif.PropsReader.C33_length.
Print Assumptions Verif.PropsReader.C34_entry.
Print Assumptions Verif.PropsReader.C34_table.
Print Assumptions Verif.PropsExact.C35_iff.
Print Assumptions Verif.PropsModule.C35_module_partial.
Print Assumptions Verif.PropsModule.C35_module_refuted.
Print Assumptions Verif.PropsReader.C35_backward_partial.
Print Assumptions Verif.PropsReader.C35_forward_refuted.
Print Assumptions Verif.PropsNames.C36_exact.
Print Assumptions Verif.PropsNames.C36_earlier.
Print Assumptions Verif.PropsNames.C36_iff.
Print Assumptions Verif.PropsReader.C36_increasing_partial.
Print Assumptions Verif.PropsReader.C36_order_refuted.
Print Assumptions Verif.PropsModule.C37_roundtrip.
Print Assumptions Verif.PropsModule.C37_tables.
Print Assumptions Verif.PropsModule.C38_suffix.
Print Assumptions Verif.PropsModule.C39_truncation.
Print Assumptions Verif.PropsModule.C39_encoding.
Print Assumptions Verif.PropsModule.C40_sizes.
Print Assumptions Verif.PropsModule.C40_doubled.
Print Assumptions Verif.PropsModule.C41_magic.
Print Assumptions Verif.PropsModule.C41_version.
Print Assumptions Verif.PropsModule.C41_accepted.
Print Assumptions Verif.PropsModule.C42_refuted.
Print Assumptions Verif.PropsModule.C42_sequence_partial.
Print Assumptions Verif.PropsSticky.C42_after.
Print Assumptions Verif.PropsSticky.C42_iff.
Print Assumptions Verif.PropsSticky.C42_header.
Print Assumptions Verif.PropsModule.C43_accepted.
Print Assumptions Verif.PropsModule.C43_kept.
Print Assumptions Verif.PropsModule.C44_refuted.
Print Assumptions Verif.PropsModule.C44_counts_refuted.
Print Assumptions Verif.PropsModule.C44_terminates.
Print Assumptions Verif.PropsModule.C44_encoded.
Print Assumptions Verif.PropsOutcome.C44_crash_iff.
Print Assumptions Verif.PropsExact.C45_iff.
Print Assumptions Verif.PropsModule.C45_lens_refuted.
Print Assumptions Verif.PropsModule.C45_empty_refuted.
Print Assumptions Verif.PropsHash.C46_incremental.
Print Assumptions Verif.PropsHash.C46_standard.
Print Assumptions Verif.PropsHash.C46_range.
Print Assumptions Verif.PropsHash.C46_burst.
Print Assumptions Verif.PropsHash.C46_window.
Print Assumptions Verif.PropsHash.C47_shape.
Print Assumptions Verif.PropsHash.C47_accepted.
Print Assumptions Verif.PropsHash.C47_irrelevant.
Print Assumptions Verif.PropsHash.C47_irrelevant_enum.
Print Assumptions Verif.PropsHash.C47_field_name.
Print Assumptions Verif.PropsHash.C47_field_type.
Print Assumptions Verif.PropsHash.C48_primitive_refuted.
Print Assumptions Verif.PropsHash.C48_kind_refuted.
Print Assumptions Verif.PropsHash.C48_signature_refuted.
Print Assumptions Verif.PropsHash.C49_lookup.
Print Assumptions Verif.PropsHash.C49_inverse.
Print Assumptions Verif.PropsHash.C50_exact.
Print Assumptions Verif.PropsHash.C50_panics.
Print Assumptions Verif.PropsHash.C50_forward_refuted.
Print Assumptions Verif.PropsHash.C50_no_global_refuted.
Print Assumptions Verif.PropsHash.C50_no_functions_refuted.
Print Assumptions Verif.PropsHash.C51_globals.
Print Assumptions Verif.PropsHash.C51_constant.
Print Assumptions Verif.PropsHash.C51_default.
Print Assumptions Verif.PropsHash.C51_int_field.
Print Assumptions Verif.PropsHash.C52_finalize_refuted.
Print Assumptions Verif.PropsHash.C52_overwrite_refuted.
Print Assumptions Verif.PropsHash.C52_hashes.
Print Assumptions Verif.PropsCompiler.C53_init.
Print Assumptions Verif.PropsCompiler.C53_hot_reload.
Print Assumptions Verif.PropsModule.C54_types.
Print Assumptions Verif.PropsModule.C54_acyclic.
Print Assumptions Verif.PropsModule.C54_globals.
Print Assumptions Verif.PropsModule.C55_functions.
Print Assumptions Verif.PropsModule.C56_debug.
Print Assumptions Verif.PropsHash.C57_order.
Print Assumptions Verif.PropsHash.C57_sensitive.
Print Assumptions Verif.PropsFunHash.C58_exact.
Print Assumptions Verif.PropsFunHash.C58_panics.
Print Assumptions Verif.PropsFunHash.C58_order.
Print Assumptions Verif.PropsFunHash.C58_sensitive.
Print Assumptions Verif.PropsFunHash.C58_float_refuted.
Print Assumptions Verif.PropsFunHash.C59_alloc_refuted.
Print Assumptions Verif.PropsFunHash.C59_native_refuted.
Print Assumptions Verif.PropsImmix2.C60_marks.
Print Assumptions Verif.PropsImmix2.C60_panics.
Print Assumptions Verif.PropsImmix2.C61_pointers.
Print Assumptions Verif.PropsImmix2.C62_accounting.
Print Assumptions Verif.PropsImmix2.C62_footprint.
Print Assumptions Verif.PropsImmix2.C62_small.
Print Assumptions Verif.PropsErr.C63_errors.
Print Assumptions Verif.PropsErr.C63_later.
Print Assumptions Verif.PropsErr.C63_history.
Print Assumptions Verif.PropsErr.C64_crashes.
Print Assumptions Verif.PropsErr.C64_kinds.
Print Assumptions Verif.PropsErr.C65_complete.
Print Assumptions Verif.PropsErr.C65_short.
Print Assumptions Verif.PropsGrammar.C66_exact.
Print Assumptions Verif.PropsGrammar.C66_position.
Print Assumptions Verif.PropsGrammar.C67_unambiguous.
Print Assumptions Verif.PropsGrammar.C67_spelling.
Print Assumptions Verif.PropsGrammar.C68_indices.
Print Assumptions Verif.PropsGrammar.C69_types.
Print Assumptions Verif.PropsGrammar.C70_functions.
Print Assumptions Verif.PropsGrammar.C71_cells_partial.
Print Assumptions Verif.PropsGrammar.C71_cache_refuted.
Print Assumptions Verif.PropsSize.C71_inside_partial.
Print Assumptions Verif.PropsErr.C72_kept.
Print Assumptions Verif.PropsErr.C72_accepts.
Print Assumptions Verif.PropsErr.C72_last_negative.
Print Assumptions Verif.PropsErr.C72_first_kind.
Print Assumptions Verif.PropsErr.C72_first_refuted.
Print Assumptions Verif.PropsErr.C72_last_refuted.
Print Assumptions Verif.PropsErr.C73_no_types.
Print Assumptions Verif.PropsErr.C73_last_global.
Print Assumptions Verif.PropsConc.C74_alone.
Print Assumptions Verif.PropsConc.C74_quiet.
Print Assumptions Verif.PropsConc.C74_valid.
Print Assumptions Verif.PropsConc.C74_ends.
Print Assumptions Verif.PropsConc.C74_independent_refuted.
Print Assumptions Verif.PropsConc.C74_sticky.
Print Assumptions Verif.PropsSign.C75_native.
Print Assumptions Verif.PropsSign.C75_native_alone.
Print Assumptions Verif.PropsSign.C75_native_sensitive.
Print Assumptions Verif.PropsSign.C75_border_refuted.
Print Assumptions Verif.PropsSign.C75_function.
Print Assumptions Verif.PropsSign.C75_function_panics.
Print Assumptions Verif.PropsSign.C75_reader_refuted.
Print Assumptions Verif.PropsCompiler.C76_reinit.
Print Assumptions Verif.PropsPlace.C77_exact.
Print Assumptions Verif.PropsPlace.C77_address_independent.
Print Assumptions Verif.PropsCost.C78_cut_integers.
Print Assumptions Verif.PropsCost.C78_cut_floats.
Print Assumptions Verif.PropsCost.C78_work_refuted.
Print Assumptions Verif.PropsTurns.C78_same.
Print Assumptions Verif.PropsTurns.C78_turns.
Print Assumptions Verif.PropsTurns.C78_turns_bounded.
Print Assumptions Verif.PropsTurns.C78_turns_refuted.
Print Assumptions Verif.PropsSize.C79_types_refuted.
Print Assumptions Verif.PropsSize.C79_types_bound.
Print Assumptions Verif.PropsSize.C79_text_partial.
Print Assumptions Verif.PropsSize.C79_names_refuted.
Print Assumptions Verif.PropsLocal.C80_prefix.
Print Assumptions Verif.PropsLocal.C80_outcome.
Print Assumptions Verif.PropsProfile.C81_profile.
Print Assumptions Verif.PropsProfile.C81_small.
Print Assumptions Verif.PropsProfile.C81_accepted.
Print Assumptions Verif.PropsProfile.C81_overflow_refuted.
Print Assumptions Verif.PropsProfile.C81_wrap_refuted.
Print Assumptions Verif.PropsCut.C82_sections.
Print Assumptions Verif.PropsCut.C82_cut.
Print Assumptions Verif.PropsCut.C82_every.
Print Assumptions Verif.PropsCut.C82_refused_refuted.
Print Assumptions Verif.PropsBad.C83_marks.
Print Assumptions Verif.PropsBad.C83_legal.
Print Assumptions Verif.PropsBad.C83_refs.
Print Assumptions Verif.PropsBad.C83_super.
Print Assumptions Verif.PropsBad.C83_natives.
Print Assumptions Verif.PropsBad2.C83_function.
Print Assumptions Verif.PropsBad2.C83_function_refuted.
Print Assumptions Verif.PropsOutcome.C84_refused.
Print Assumptions Verif.PropsOutcome.C84_outcome.
Print Assumptions Verif.PropsOutcome.C84_exclusive.
Print Assumptions Verif.PropsCopies.C85_copies.
Print Assumptions Verif.PropsCopies.C85_unannounced.
Print Assumptions Verif.PropsCopies.C85_uniform.
Print Assumptions Verif.PropsCopies.C85_accepted.
Print Assumptions Verif.PropsCopies.C85_family.
Print Assumptions Verif.PropsCopies.C85_linear_refuted.
Print Assumptions Verif.PropsCopies.C85_quadratic_refuted.
Print Assumptions Verif.PropsFill.C86_filled.
Print Assumptions Verif.PropsFill.C86_undeclared.
Print Assumptions Verif.PropsFill.C86_accepted.
Print Assumptions Verif.PropsFill.C86_uniform.
Print Assumptions Verif.PropsFill.C86_size_refuted.
Print Assumptions Verif.PropsFill.C86_crash.
Print Assumptions Verif.PropsWork.C87_work.
Print Assumptions Verif.PropsWork.C87_accepted.
Print Assumptions Verif.PropsWork.C87_spellings.
Print Assumptions Verif.PropsLookup.C88_counts.
Print Assumptions Verif.PropsLookup.C88_compare.
Print Assumptions Verif.PropsLookup.C88_compare_exact.
Print Assumptions Verif.PropsLookup.C88_lookup.
Print Assumptions Verif.PropsLookup.C88_alloc.
Print Assumptions Verif.PropsLookup.C88_functions.
Print Assumptions Verif.PropsLookup.C88_finalize.
Print Assumptions Verif.PropsLookup.C88_bound.
Print Assumptions Verif.PropsLookup.C88_exponential_refuted.
Print Assumptions Verif.PropsDepth.C89_clone.
Print Assumptions Verif.PropsDepth.C89_drop.
Print Assumptions Verif.PropsDepth.C89_compare.
Print Assumptions Verif.PropsDepth.C89_bound.
Print Assumptions Verif.PropsDepth.C89_reached.
Print Assumptions Verif.PropsBlind.C90_stream.
Print Assumptions Verif.PropsBlind.C90_exact.
Print Assumptions Verif.PropsBlind.C90_alike.
Print Assumptions Verif.PropsBlind.C90_primitive_refuted.
Print Assumptions Verif.PropsBlind.C90_string_refuted.
Print Assumptions Verif.PropsBlind.C90_registers_refuted.
Print Assumptions Verif.PropsTypeBlind.C91_levels.
Print Assumptions Verif.PropsTypeBlind.C91_unnoticed.
Print Assumptions Verif.PropsTypeBlind.C91_functions_refuted.
Print Assumptions Verif.PropsTypeBlind.C91_exact.
Print Assumptions Verif.PropsTypeBlind.C91_hash.
Print Assumptions Verif.PropsHashCopy.C92_counts.
Print Assumptions Verif.PropsHashCopy.C92_alloc.
Print Assumptions Verif.PropsHashCopy.C92_hash.
Print Assumptions Verif.PropsHashCopy.C92_quadratic.
Print Assumptions Verif.PropsHashCopy.C92_finalize.
Print Assumptions Verif.PropsHashCopy.C92_exponential_refuted.
