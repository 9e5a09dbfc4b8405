{
 "claims": [
  {
   "property": "C01",
   "status": "proved",
   "theorems": [
    "C01_parse_iff_format",
    "C01_parse_class_iff_format",
    "C01_accepted_has_format",
    "C01_format_functional"
   ],
   "note": ""
  },
  {
   "property": "C02",
   "status": "partial",
   "theorems": [
    "C02_exact",
    "C02_panics_only_if_partial",
    "C02_release_partial",
    "C02_debug_partial",
    "C02_count_panics",
    "C02_text_refuted",
    "C02_jump_refuted",
    "C02_tableswitch_refuted",
    "C02_count_refuted",
    "C04_cycle_refuted"
   ],
   "note": "False as stated: witnesses in the _refuted theorems. Proved: every panic has one of the nine causes listed in S_Safe, and files without these causes never make the parser panic. C02_exact: with 64-bit indices and a stack as deep as the input is long, the exact condition (iff) under which a parse panics, and with which panic."
  },
  {
   "property": "C03",
   "status": "proved",
   "theorems": [
    "C03_parse_terminates",
    "C03_iteration_terminates",
    "C03_lookup_terminates",
    "C03_names_terminate",
    "C03_descriptors_terminate"
   ],
   "note": "The bounds are the fuel of the loops in the model (length of the data plus one); Diverge is the outcome of running out of fuel."
  },
  {
   "property": "C04",
   "status": "partial",
   "theorems": [
    "C04_only_cycles_partial",
    "C04_overflow_iff",
    "C04_cycle_refuted"
   ],
   "note": "False as stated: a cycle of NameAndType constants referenced by a method exhausts every stack (C04_cycle_refuted). Proved: with a stack as deep as the input is long these cycles are the only cause of exhaustion, and the exact condition under which it happens (C04_overflow_iff)."
  },
  {
   "property": "C05",
   "status": "proved",
   "theorems": [
    "C05_extended_file_rejected",
    "C05_truncated_file_rejected"
   ],
   "note": ""
  },
  {
   "property": "C06",
   "status": "proved",
   "theorems": [
    "C06_off_strips",
    "C06_off_fails_on_fails",
    "C06_bytecode_iff_option"
   ],
   "note": ""
  },
  {
   "property": "C07",
   "status": "proved",
   "theorems": [
    "C07_bad_magic_is_an_error",
    "C07_header"
   ],
   "note": ""
  },
  {
   "property": "C08",
   "status": "partial",
   "theorems": [
    "C08_layout",
    "C08_every_entry",
    "C08_slot_count_partial",
    "C08_slot_count_refuted"
   ],
   "note": "The slot count is false of the code when the last entry is a Long or Double at the last index (pool is one slot longer); the exact count is proved. Everything else is proved."
  },
  {
   "property": "C09",
   "status": "proved",
   "theorems": [
    "C09_references_valid",
    "C09_invalid_reference_rejected",
    "C09_references_resolve"
   ],
   "note": ""
  },
  {
   "property": "C10",
   "status": "partial",
   "theorems": [
    "C10_items_in_order_partial",
    "C10_items_before_panic",
    "C10_item_unique",
    "C10_order"
   ],
   "note": "Proved for all classes without an undecodable NameAndType descriptor; for the others it is proved that the items before the first one are returned and that next then panics (see C11)."
  },
  {
   "property": "C11",
   "status": "partial",
   "theorems": [
    "C11_iteration_partial",
    "C11_panics_iff",
    "C11_iteration_refuted"
   ],
   "note": "False as stated: witness in C11_iteration_refuted. The exact condition for a panic is proved (C11_panics_iff)."
  },
  {
   "property": "C12",
   "status": "proved",
   "theorems": [
    "C12_items_valid"
   ],
   "note": ""
  },
  {
   "property": "C13",
   "status": "proved",
   "theorems": [
    "C13_field_descriptor_parser",
    "C13_field_descriptor_parser_total",
    "C13_field_descriptor_recognition",
    "C13_array_descriptor_recognition"
   ],
   "note": ""
  },
  {
   "property": "C14",
   "status": "proved",
   "theorems": [
    "C14_method_descriptor_recognition",
    "C14_method_descriptor_parser",
    "C14_method_descriptor_parser_total",
    "C14_return_descriptor_recognition"
   ],
   "note": ""
  },
  {
   "property": "C15",
   "status": "proved",
   "theorems": [
    "C15_field_descriptor_display_parse",
    "C15_field_descriptor_parse_display",
    "C15_method_descriptor_display_parse",
    "C15_method_descriptor_parse_display",
    "C15_display_injective"
   ],
   "note": ""
  },
  {
   "property": "C16",
   "status": "partial",
   "theorems": [
    "C16_field_descriptor_partial",
    "C16_method_descriptor_partial",
    "C16_record_descriptor_partial",
    "C16_local_variable_descriptor_partial",
    "C16_descriptor_refuted"
   ],
   "note": "False of the code: trailing text after a field descriptor is ignored. Proved: the formatted descriptor is a prefix of the string (all of it for methods)."
  },
  {
   "property": "C17",
   "status": "proved",
   "theorems": [
    "C17_class_names"
   ],
   "note": ""
  },
  {
   "property": "C18",
   "status": "partial",
   "theorems": [
    "C18_class_name_refuted",
    "C18_class_name_partial",
    "C18_class_name_total"
   ],
   "note": "False of the code: the empty string and a trailing slash are accepted; the exact accepted set is proved."
  },
  {
   "property": "C19",
   "status": "proved",
   "theorems": [
    "C19_fields"
   ],
   "note": ""
  },
  {
   "property": "C20",
   "status": "proved",
   "theorems": [
    "C20_methods"
   ],
   "note": ""
  },
  {
   "property": "C21",
   "status": "proved",
   "theorems": [
    "C21_modules"
   ],
   "note": ""
  },
  {
   "property": "C22",
   "status": "proved",
   "theorems": [
    "C22_bootstrap"
   ],
   "note": ""
  },
  {
   "property": "C23",
   "status": "proved",
   "theorems": [
    "C23_attribute_framing",
    "C23_class_attributes_end",
    "C23_code_contents"
   ],
   "note": ""
  },
  {
   "property": "C24",
   "status": "proved",
   "theorems": [
    "C24_class_attributes",
    "C24_field_attributes",
    "C24_method_attributes"
   ],
   "note": "Insertion at any depth, in any list of the class, its fields and methods; the byte-level edit is defined in S_Grow.v from the framing of attributes alone."
  },
  {
   "property": "C25",
   "status": "proved",
   "theorems": [
    "C25_offsets_tile",
    "C25_offsets_increase",
    "C25_bytecode_present"
   ],
   "note": ""
  },
  {
   "property": "C26",
   "status": "proved",
   "theorems": [
    "C26_get_opcode_index"
   ],
   "note": ""
  },
  {
   "property": "C27",
   "status": "proved",
   "theorems": [
    "C27_jump_targets",
    "C27_bad_jump_rejected"
   ],
   "note": ""
  },
  {
   "property": "C28",
   "status": "partial",
   "theorems": [
    "C28_tableswitch",
    "C28_lookupswitch",
    "C28_tableswitch_partial",
    "C28_tableswitch_refuted"
   ],
   "note": "Full property for builds with overflow checks. In builds without them one exception is proved to occur: low = i32::MIN, high = i32::MAX gives an empty table."
  },
  {
   "property": "C29",
   "status": "proved",
   "theorems": [
    "C29_table",
    "C29_table_unique",
    "C29_local_indices",
    "C29_local_forms",
    "C29_signed_operands",
    "C29_unassigned_rejected"
   ],
   "note": ""
  },
  {
   "property": "C30",
   "status": "proved",
   "theorems": [
    "C30_member_references",
    "C30_loadable_constants"
   ],
   "note": ""
  },
  {
   "property": "C31",
   "status": "proved",
   "theorems": [
    "C31_class_flags",
    "C31_field_flags",
    "C31_method_flags",
    "C31_inner_class_flags",
    "C31_method_parameter_flags",
    "C31_module_flags",
    "C31_requires_flags",
    "C31_exports_flags",
    "C31_opens_flags"
   ],
   "note": ""
  },
  {
   "property": "C32",
   "status": "proved",
   "theorems": [
    "C32_unsigned_bijective",
    "C32_signed_bijective",
    "C32_big_endian",
    "C32_constants"
   ],
   "note": ""
  },
  {
   "property": "C33",
   "status": "proved",
   "theorems": [
    "C33_decode_encoded",
    "C33_encoding_injective",
    "C33_decoded_is_unicode",
    "C33_constants"
   ],
   "note": "About the model of cesu8 1.1.0 (the crate is not in /repo)."
  },
  {
   "property": "C34",
   "status": "partial",
   "theorems": [
    "C34_texts_grounded",
    "C34_items_grounded",
    "C34_undecodable_rejected_partial",
    "C34_string_constants",
    "C34_undecodable_refuted"
   ],
   "note": "False as stated: the descriptor of a NameAndType no other constant refers to may be undecodable (witness). Proved: every text is a decoded constant, and every other reference to an undecodable text is refused."
  },
  {
   "property": "C35",
   "status": "proved",
   "theorems": [
    "C35_frames",
    "C35_reserved_frame_rejected"
   ],
   "note": ""
  },
  {
   "property": "C36",
   "status": "proved",
   "theorems": [
    "C36_length_suffices",
    "C36_any_depth"
   ],
   "note": ""
  },
  {
   "property": "C37",
   "status": "proved",
   "theorems": [
    "C37_display",
    "C37_context_appends"
   ],
   "note": ""
  },
  {
   "property": "C38",
   "status": "proved",
   "theorems": [
    "C38_no_deadlock",
    "C38_terminates",
    "C38_same_items",
    "C38_expected_unique",
    "C38_no_panic"
   ],
   "note": "Mutexes, guards and poisoning are modelled by an abstract machine with arbitrary scheduling (M_Locks.v)."
  },
  {
   "property": "C39",
   "status": "partial",
   "theorems": [
    "C39_only_switches_partial",
    "C39_linear_refuted"
   ],
   "note": "False as stated: 86 bytes make the parser request 2^34-8 bytes. Proved: only the table of a switch instruction can make an allocation fail, and it asks for exactly the bytes its numbers say, at most 2^34. The reservations for other counts are in C56."
  },
  {
   "property": "C40",
   "status": "partial",
   "theorems": [
    "C40_same_classes",
    "C40_never_a_wrong_class",
    "C40_wide_words_partial",
    "C40_narrow_words_refuted"
   ],
   "note": "False as stated on 32-bit targets: witness in C40_narrow_words_refuted. Proved for 64-bit words, and that no class is accepted wrongly on either."
  },
  {
   "property": "C41",
   "status": "proved",
   "theorems": [
    "C41_size_bounded"
   ],
   "note": ""
  },
  {
   "property": "C42",
   "status": "proved",
   "theorems": [
    "C42_better_machine",
    "C42_results_are_stable"
   ],
   "note": ""
  },
  {
   "property": "C43",
   "status": "partial",
   "theorems": [
    "C43_vector",
    "C43_freed_exactly",
    "C43_leak",
    "C43_released",
    "C44_valid_constants",
    "C44_accepted",
    "C43_leak_refuted"
   ],
   "note": "False as stated for rejected files: two ClassInfo constants that refer to each other are never freed (Rc cycle, C43_leak_refuted). Proved: for every file exactly the entries not reached from a cycle are freed, once each; accepted classes and files with valid constants are freed entirely."
  },
  {
   "property": "C44",
   "status": "partial",
   "theorems": [
    "C44_accepted",
    "C44_valid_constants",
    "C44_chain",
    "C44_chain_refuted",
    "C44_deepest_refuted"
   ],
   "note": "True of accepted classes and of rejected files with valid constants (four levels, proved). False of other rejected files: a chain of n ClassInfo constants needs n+1 levels, n up to 65534."
  },
  {
   "property": "C45",
   "status": "partial",
   "theorems": [
    "C45_reads",
    "C45_parse",
    "C45_same",
    "C45_waits",
    "C45_deadlock_refuted"
   ],
   "note": "Proved for every file, machine and option: same class or same error; the only difference is that a parse that would overflow the stack because NameAndType constants form a cycle waits for its own lock instead, so the part about waiting is false as stated (C45_deadlock_refuted) and its exact condition is proved (C45_waits)."
  },
  {
   "property": "C46",
   "status": "proved",
   "theorems": [
    "C46_logarithmic"
   ],
   "note": "One unit of fuel of the model is one inspected instruction."
  },
  {
   "property": "C47",
   "status": "proved",
   "theorems": [
    "C47_bad_reference",
    "C47_invalid_constant",
    "C47_first_constant",
    "C47_all_pass"
   ],
   "note": "C47_first_constant is exact: it says which constant is named, and when the parse overflows the stack instead (C04)."
  },
  {
   "property": "C48",
   "status": "proved",
   "theorems": [
    "C48_kind_by_name"
   ],
   "note": ""
  },
  {
   "property": "C49",
   "status": "proved",
   "theorems": [
    "C49_rows",
    "C49_exception_table"
   ],
   "note": ""
  },
  {
   "property": "C50",
   "status": "proved",
   "theorems": [
    "C50_annotation_values",
    "C50_constant_value"
   ],
   "note": ""
  },
  {
   "property": "C51",
   "status": "proved",
   "theorems": [
    "C51_type_annotations"
   ],
   "note": ""
  },
  {
   "property": "C52",
   "status": "proved",
   "theorems": [
    "C52_parse_suffices",
    "C52_length_suffices",
    "C52_any_depth"
   ],
   "note": "Compiler-generated destructors, modelled in M_DropData.v; one level per nested value or attribute list."
  },
  {
   "property": "C53",
   "status": "proved",
   "theorems": [
    "C53_error",
    "C53_told",
    "C53_fault",
    "C53_unique",
    "C53_exactly"
   ],
   "note": "Texts about the descriptor of a field do not say which field (C53_unnamed_field); the statement says so."
  },
  {
   "property": "C54",
   "status": "proved",
   "theorems": [
    "C54_same",
    "C54_uncopied",
    "C54_iterator",
    "C54_all_borrowed",
    "C54_which_are_utf8"
   ],
   "note": "Z_*.v are the model with Cow in place of its contents; C54_same ties it to the model. from_java_cesu8 is the published algorithm of the cesu8 crate (M_Cesu8)."
  },
  {
   "property": "C55",
   "status": "partial",
   "theorems": [
    "C55_bounded_partial",
    "C55_utf8_uncopied",
    "C55_copies_refuted",
    "C55_parameters_refuted",
    "C55_proportional_refuted"
   ],
   "note": "False as stated: texts that are not UTF-8 are copied at every reference and each method has its own parameter list, so n references to a text of m bytes (two bytes each) make n*m bytes (C55_copies_refuted), n methods with the same descriptor n*m parameters (C55_parameters_refuted). Proved: never more than 98303 times the length of the file; no copies if all texts are UTF-8; no factor of 20000 suffices."
  },
  {
   "property": "C56",
   "status": "proved",
   "theorems": [
    "C56_same_outcome",
    "C56_accepted",
    "C56_bounded",
    "C56_each",
    "C56_rate_reached"
   ],
   "note": "R_*.v are the readers of the crate with every Vec::with_capacity on record; C56_same_outcome ties them to the model. Counted in elements, not bytes; all reservations of the call are added up, though some are released before the next is made."
  },
  {
   "property": "C57",
   "status": "proved",
   "theorems": [
    "C57_linear",
    "C57_rate_reached"
   ],
   "note": "W_*.v are the functions of the crate with a count of their steps; the first conjunct of C57_linear ties them to the model. What is charged for is listed at the head of W_Base.v and in DESIGN.md: allocation, destructors and collisions in hash sets are not counted."
  },
  {
   "property": "C58",
   "status": "partial",
   "theorems": [
    "C58_all_but_seven_partial",
    "C58_seven_missing",
    "C58_stricter",
    "C58_stricter_refuted",
    "C58_attribute_lengths"
   ],
   "note": "False as stated. Seven rules of 4.4 are not checked: bytes of texts, names of methods referred to (<x>), 255 parameter units, descriptors of unused NameAndType constants, <init>/<clinit> in method handles, Module and Package outside module files, a long or double at the last index. Proved: an accepted file conforms to 4.4 if and only if it passes these seven; each is violated, alone, by an accepted file; attributes of computable length have it (C05, C07, C23 are the other parts of 4.8). In the other direction a conforming constant is rejected if and only if a class name in a descriptor has < or >. Texts count as read by the decoder: undecodable texts are no names."
  },
  {
   "property": "C59",
   "status": "proved",
   "theorems": [
    "C59_versions"
   ],
   "note": "Both directions; S_Rewrite.allowed_in says what the version must have."
  },
  {
   "property": "C60",
   "status": "proved",
   "theorems": [
    "C60_rows"
   ],
   "note": "One theorem for the four tables at once; the file is cut into the rows, any duplicate-free selection of row numbers in any order may be written back."
  },
  {
   "property": "C61",
   "status": "proved",
   "theorems": [
    "C61_constant"
   ],
   "note": "Both directions. The hypothesis index_of cs (length cs) = count leaves out files whose last constant is a long or double at the last index (C08), where there is no end of the pool to write at."
  },
  {
   "property": "C62",
   "status": "proved",
   "theorems": [
    "C62_equality",
    "C62_hash",
    "C62_order",
    "C62_total"
   ],
   "note": "M_Traits.v writes out what derive generates for PartialEq, Hash and Ord; hashing is the sequence of calls on the Hasher. Values: class names made by try_from or by parsing a descriptor (the field is private)."
  },
  {
   "property": "C63",
   "status": "proved",
   "theorems": [
    "C63_no_deadlock",
    "C63_no_panic",
    "C63_same_items",
    "C63_all_calls",
    "C63_terminates"
   ],
   "note": "M_Handover.v: a call on an iterator begins when no other is going on for it and consists of the lock operations of next (M_Locks.v)."
  },
  {
   "property": "C64",
   "status": "proved",
   "theorems": [
    "C64_prints",
    "C64_no_deadlock",
    "C64_terminates",
    "C64_texts",
    "C64_alone"
   ],
   "note": "M_Debug.v: the derived Debug of the constant pool with RefCell or Mutex (try_lock) as documented in std; of the text only the structure is modelled. locked_shown: <locked> does occur with two threads. C64_meets: four levels and seven constants occur."
  },
  {
   "property": "C65",
   "status": "proved",
   "theorems": [
    "C65_early",
    "C65_truncated",
    "C65_extra",
    "C65_panics",
    "C65_final"
   ],
   "note": "Holds on every machine, with no hypothesis on size or build mode."
  },
  {
   "property": "C66",
   "status": "partial",
   "theorems": [
    "C66_conforming_accepted_partial",
    "C66_refuted"
   ],
   "note": "S_Conforming.v is written from the JVM specification as a set of byte strings, with a parameter saying which of the four deviations may occur. C66_conforming_accepted_partial: without them every conforming file is accepted. C66_refuted: for each deviation a file conforming but for it is rejected. So the property as stated is false in exactly these four ways. C66_meets: a conforming file with code, a stack map, annotations and bootstrap methods."
  },
  {
   "property": "C67",
   "status": "proved",
   "theorems": [
    "C67_instructions_determine_code",
    "C67_distinct_constants",
    "C67_padding_is_free",
    "C67_kind_is_lost"
   ],
   "note": "general form; with distinct constants all but the padding is determined; the padding is free; the exception for invokestatic is real (one class, two methods with equal instructions, one calling a Methodref, the other an InterfaceMethodref)"
  },
  {
   "property": "C68",
   "status": "proved",
   "theorems": [
    "C68_what_parsing_forgets",
    "C68_distinct_constants"
   ],
   "note": "S_Lost.v says where the two files may differ: header, members, and attributes by name at any depth. C68_meets: two files of different length that differ in all of these ways but one (the encoding of a SourceDebugExtension) and are parsed to the same value."
  },
  {
   "property": "C69",
   "status": "proved",
   "theorems": [
    "C69_iteration_steps",
    "C69_exact",
    "C69_linear",
    "C69_no_copies",
    "C69_copies_reached"
   ],
   "note": "the metered iterator W_Iter.v has the outcome of the iterator of Z_Class.v (first conjunct), which says which texts are slices of the file; bounds for all outcomes; C69_exact: the exact number when no call panics; the last two theorems: nothing copied without decoded texts, and the rate is reached by a family of files"
  },
  {
   "property": "C70",
   "status": "proved",
   "theorems": [
    "C70_known_texts",
    "C70_one_line",
    "C70_super_example",
    "C70_tag_example",
    "C70_cesu8_example"
   ],
   "note": "no hypotheses; S_Messages.v lists the texts of the calls of fail! and err! (extracted from the sources); the examples show the three exceptions, two of them with a line feed in the message"
  },
  {
   "property": "C71",
   "status": "proved",
   "theorems": [
    "C71_contexts_bounded",
    "C71_rate"
   ],
   "note": "C71_rate: for every n a file of 3 (n + 2) + 74 bytes whose error has n + 2 contexts"
  },
  {
   "property": "C72",
   "status": "proved",
   "theorems": [
    "C72_parts_short",
    "C72_text_bounded",
    "C72_text_grows"
   ],
   "note": "C72_text_grows: for every n >= 200 a file of 3 n + 80 bytes whose error is more than five times as long"
  },
  {
   "property": "C73",
   "status": "proved",
   "theorems": [
    "C73_other_constants",
    "C73_renumbered",
    "C73_reordered"
   ],
   "note": "S_Renumber.v: offers, renumbered, reordered, same_but_pool; C73_renumbered is proved from C73_other_constants, so the examples (the pool of the sample reversed; copies of constants merged) meet the hypotheses of all"
  },
  {
   "property": "C74",
   "status": "proved",
   "theorems": [
    "C74_combined",
    "C74_union"
   ],
   "note": "S_Combine.v: whole_rules (the rules of the specification about a class as a whole), some_rows; S_Rewrite.v: select, counted, class_with"
  },
  {
   "property": "C75",
   "status": "proved",
   "theorems": [
    "C75_trimmed"
   ],
   "note": "S_Trim.v: trimmed_class, over S_Rewrite.v: select, row_numbers; the example leaves out attributes at all levels of the sample"
  },
  {
   "property": "C76",
   "status": "proved",
   "theorems": [
    "C76_anywhere"
   ],
   "note": "S_Anywhere.v: refurnished, supplied, over S_Within.v: within"
  },
  {
   "property": "C77",
   "status": "proved",
   "theorems": [
    "C77_exchanged"
   ],
   "note": "S_Exchange.v: exchanged_class, is_code (S_Format.v: code_format); the example ends with an exception handler beyond the code"
  },
  {
   "property": "C78",
   "status": "proved",
   "theorems": [
    "C78_fewer"
   ],
   "note": "S_Fewer.v: fewer_class, rows; tables inside annotations (elements, arrays) and inside the rows of a module (the targets of an export) are left as they are"
  },
  {
   "property": "C79",
   "status": "proved",
   "theorems": [
    "C79_renamed"
   ],
   "note": "S_Rename.v: renamed, offers, a_class; whole_rules is that of S_Combine.v"
  },
  {
   "property": "C80",
   "status": "proved",
   "theorems": [
    "C80_written"
   ],
   "note": "S_Written.v: rewritten, written_data; attributes with nested tables (code, annotations, stack maps, bootstrap methods, modules, records) are only taken from the class itself"
  }
 ]
}