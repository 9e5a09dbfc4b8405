(** * All property theorems: what they rest on.

    [all_theorems] only collects the proofs; [Print Assumptions] lists the axioms used by any of them. *)
From Verif Require Import T_Anywhere T_Assemble T_Attributes T_Brief T_Bytecode T_Class T_Combine T_Conforming T_Contents T_Contexts T_Cycles T_Debug T_Deep T_Drop T_DropData T_Early T_Errors T_Exchange T_Faults T_Faults2 T_Fewer T_Handover T_Heap T_Iter T_Jvms T_Locks T_Lost T_Members T_Messages T_Names T_Options T_Panics T_ParseLocks T_Rename T_Renumber T_Reserve T_Rewrite T_Rewrite2 T_Rewrite3 T_Safe T_Search T_Size T_Strings T_Text T_Traits T_Trim T_Unknown T_Work T_Work2 T_Written T_ZeroCopy.

Definition all_theorems := (
  @C01_parse_iff_format,
  @C01_parse_class_iff_format,
  @C01_accepted_has_format,
  @C01_format_functional,
  @C02_exact,
  @C02_panics_only_if_partial,
  @C02_release_partial,
  @C02_debug_partial,
  @C02_count_panics,
  @C02_text_refuted,
  @C02_jump_refuted,
  @C02_tableswitch_refuted,
  @C02_count_refuted,
  @C04_cycle_refuted,
  @C03_parse_terminates,
  @C03_iteration_terminates,
  @C03_lookup_terminates,
  @C03_names_terminate,
  @C03_descriptors_terminate,
  @C04_only_cycles_partial,
  @C04_overflow_iff,
  @C05_extended_file_rejected,
  @C05_truncated_file_rejected,
  @C06_off_strips,
  @C06_off_fails_on_fails,
  @C06_bytecode_iff_option,
  @C07_bad_magic_is_an_error,
  @C07_header,
  @C08_layout,
  @C08_every_entry,
  @C08_slot_count_partial,
  @C08_slot_count_refuted,
  @C09_references_valid,
  @C09_invalid_reference_rejected,
  @C09_references_resolve,
  @C10_items_in_order_partial,
  @C10_items_before_panic,
  @C10_item_unique,
  @C10_order,
  @C11_iteration_partial,
  @C11_panics_iff,
  @C11_iteration_refuted,
  @C12_items_valid,
  @C13_field_descriptor_parser,
  @C13_field_descriptor_parser_total,
  @C13_field_descriptor_recognition,
  @C13_array_descriptor_recognition,
  @C14_method_descriptor_recognition,
  @C14_method_descriptor_parser,
  @C14_method_descriptor_parser_total,
  @C14_return_descriptor_recognition,
  @C15_field_descriptor_display_parse,
  @C15_field_descriptor_parse_display,
  @C15_method_descriptor_display_parse,
  @C15_method_descriptor_parse_display,
  @C15_display_injective,
  @C16_field_descriptor_partial,
  @C16_method_descriptor_partial,
  @C16_record_descriptor_partial,
  @C16_local_variable_descriptor_partial,
  @C16_descriptor_refuted,
  @C17_class_names,
  @C18_class_name_refuted,
  @C18_class_name_partial,
  @C18_class_name_total,
  @C19_fields,
  @C20_methods,
  @C21_modules,
  @C22_bootstrap,
  @C23_attribute_framing,
  @C23_class_attributes_end,
  @C23_code_contents,
  @C24_class_attributes,
  @C24_field_attributes,
  @C24_method_attributes,
  @C25_offsets_tile,
  @C25_offsets_increase,
  @C25_bytecode_present,
  @C26_get_opcode_index,
  @C27_jump_targets,
  @C27_bad_jump_rejected,
  @C28_tableswitch,
  @C28_lookupswitch,
  @C28_tableswitch_partial,
  @C28_tableswitch_refuted,
  @C29_table,
  @C29_table_unique,
  @C29_local_indices,
  @C29_local_forms,
  @C29_signed_operands,
  @C29_unassigned_rejected,
  @C30_member_references,
  @C30_loadable_constants,
  @C31_class_flags,
  @C31_field_flags,
  @C31_method_flags,
  @C31_inner_class_flags,
  @C31_method_parameter_flags,
  @C31_module_flags,
  @C31_requires_flags,
  @C31_exports_flags,
  @C31_opens_flags,
  @C32_unsigned_bijective,
  @C32_signed_bijective,
  @C32_big_endian,
  @C32_constants,
  @C33_decode_encoded,
  @C33_encoding_injective,
  @C33_decoded_is_unicode,
  @C33_constants,
  @C34_texts_grounded,
  @C34_items_grounded,
  @C34_undecodable_rejected_partial,
  @C34_string_constants,
  @C34_undecodable_refuted,
  @C35_frames,
  @C35_reserved_frame_rejected,
  @C36_length_suffices,
  @C36_any_depth,
  @C37_display,
  @C37_context_appends,
  @C38_no_deadlock,
  @C38_terminates,
  @C38_same_items,
  @C38_expected_unique,
  @C38_no_panic,
  @C39_only_switches_partial,
  @C39_linear_refuted,
  @C40_same_classes,
  @C40_never_a_wrong_class,
  @C40_wide_words_partial,
  @C40_narrow_words_refuted,
  @C41_size_bounded,
  @C42_better_machine,
  @C42_results_are_stable,
  @C43_vector,
  @C43_freed_exactly,
  @C43_leak,
  @C43_released,
  @C44_valid_constants,
  @C44_accepted,
  @C43_leak_refuted,
  @C44_chain,
  @C44_chain_refuted,
  @C44_deepest_refuted,
  @C45_reads,
  @C45_parse,
  @C45_same,
  @C45_waits,
  @C45_deadlock_refuted,
  @C46_logarithmic,
  @C47_bad_reference,
  @C47_invalid_constant,
  @C47_first_constant,
  @C47_all_pass,
  @C48_kind_by_name,
  @C49_rows,
  @C49_exception_table,
  @C50_annotation_values,
  @C50_constant_value,
  @C51_type_annotations,
  @C52_parse_suffices,
  @C52_length_suffices,
  @C52_any_depth,
  @C53_error,
  @C53_told,
  @C53_fault,
  @C53_unique,
  @C53_exactly,
  @C54_same,
  @C54_uncopied,
  @C54_iterator,
  @C54_all_borrowed,
  @C54_which_are_utf8,
  @C55_bounded_partial,
  @C55_utf8_uncopied,
  @C55_copies_refuted,
  @C55_parameters_refuted,
  @C55_proportional_refuted,
  @C56_same_outcome,
  @C56_accepted,
  @C56_bounded,
  @C56_each,
  @C56_rate_reached,
  @C57_linear,
  @C57_rate_reached,
  @C58_all_but_seven_partial,
  @C58_seven_missing,
  @C58_stricter,
  @C58_stricter_refuted,
  @C58_attribute_lengths,
  @C59_versions,
  @C60_rows,
  @C61_constant,
  @C62_equality,
  @C62_hash,
  @C62_order,
  @C62_total,
  @C63_no_deadlock,
  @C63_no_panic,
  @C63_same_items,
  @C63_all_calls,
  @C63_terminates,
  @C64_prints,
  @C64_no_deadlock,
  @C64_terminates,
  @C64_texts,
  @C64_alone,
  @C65_early,
  @C65_truncated,
  @C65_extra,
  @C65_panics,
  @C65_final,
  @C66_conforming_accepted_partial,
  @C66_refuted,
  @C67_instructions_determine_code,
  @C67_distinct_constants,
  @C67_padding_is_free,
  @C67_kind_is_lost,
  @C68_what_parsing_forgets,
  @C68_distinct_constants,
  @C69_iteration_steps,
  @C69_exact,
  @C69_linear,
  @C69_no_copies,
  @C69_copies_reached,
  @C70_known_texts,
  @C70_one_line,
  @C70_super_example,
  @C70_tag_example,
  @C70_cesu8_example,
  @C71_contexts_bounded,
  @C71_rate,
  @C72_parts_short,
  @C72_text_bounded,
  @C72_text_grows,
  @C73_other_constants,
  @C73_renumbered,
  @C73_reordered,
  @C74_combined,
  @C74_union,
  @C75_trimmed,
  @C76_anywhere,
  @C77_exchanged,
  @C78_fewer,
  @C79_renamed,
  @C80_written).
Print Assumptions all_theorems.
