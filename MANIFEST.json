{
 "claims": [
  {
   "property": "C01",
   "status": "proved",
   "theorems": [
    "C01_integer_roundtrip"
   ],
   "note": ""
  },
  {
   "property": "C02",
   "status": "proved",
   "theorems": [
    "C02_named_integer_types",
    "C02_integer_bytes"
   ],
   "note": ""
  },
  {
   "property": "C03",
   "status": "proved",
   "theorems": [
    "C03_out_of_range_rejected",
    "C03_in_range_accepted"
   ],
   "note": ""
  },
  {
   "property": "C04",
   "status": "proved",
   "theorems": [
    "C04_integer_decoding_total",
    "C04_short_input_rejected"
   ],
   "note": ""
  },
  {
   "property": "C05",
   "status": "proved",
   "theorems": [
    "C05_bit_write",
    "C05_bit_write_past_end"
   ],
   "note": ""
  },
  {
   "property": "C06",
   "status": "proved",
   "theorems": [
    "C06_bit_read",
    "C06_bit_read_past_end"
   ],
   "note": ""
  },
  {
   "property": "C07",
   "status": "proved",
   "theorems": [
    "C07_bit_group"
   ],
   "note": ""
  },
  {
   "property": "C08",
   "status": "proved",
   "theorems": [
    "C08_positional_bits"
   ],
   "note": ""
  },
  {
   "property": "C09",
   "status": "proved",
   "theorems": [
    "C09_read_ahead_transparent"
   ],
   "note": ""
  },
  {
   "property": "C10",
   "status": "proved",
   "theorems": [
    "C10_read_ahead_empty",
    "C10_write_always_fails"
   ],
   "note": ""
  },
  {
   "property": "C11",
   "status": "proved",
   "theorems": [
    "C11_minmax_interval",
    "C11_minmax_add",
    "C11_add_sound",
    "C11_minmax_above",
    "C11_minmax_negative"
   ],
   "note": ""
  },
  {
   "property": "C12",
   "status": "proved",
   "theorems": [
    "C12_sizeof_exact",
    "C12_overlong_string"
   ],
   "note": ""
  },
  {
   "property": "C13",
   "status": "proved",
   "theorems": [
    "C13_size_within_bounds",
    "C13_fixed_size",
    "C13_constant_length_string",
    "C13_key_selector_bounds",
    "C13_function_selector_default"
   ],
   "note": ""
  },
  {
   "property": "C14",
   "status": "proved",
   "theorems": [
    "C14_roundtrip",
    "C14_keyword_object_roundtrip",
    "C14_unset_field_is_default"
   ],
   "note": ""
  },
  {
   "property": "C15",
   "status": "proved",
   "theorems": [
    "C15_exact_consumption"
   ],
   "note": ""
  },
  {
   "property": "C16",
   "status": "proved",
   "theorems": [
    "C16_truncated_rejected",
    "C16_short_padding_accepted"
   ],
   "note": ""
  },
  {
   "property": "C17",
   "status": "proved",
   "theorems": [
    "C17_constant_encoded",
    "C17_constant_checked",
    "C17_other_value_rejected",
    "C17_constant_assignment",
    "C17_constant_attribute",
    "C17_constant_anywhere_assignment",
    "C17_constant_anywhere_attribute",
    "C17_struct_constant_unreadable",
    "C17_equality"
   ],
   "note": ""
  },
  {
   "property": "C18",
   "status": "proved",
   "theorems": [
    "C18_optional_write",
    "C18_optional_read",
    "C18_optional_read_any",
    "C18_absent_like_undeclared",
    "C18_present_like_plain",
    "C18_always_read_like_plain"
   ],
   "note": ""
  },
  {
   "property": "C19",
   "status": "proved",
   "theorems": [
    "C19_lazy_is_eager",
    "C19_error_deferred",
    "C19_sizeof"
   ],
   "note": ""
  },
  {
   "property": "C20",
   "status": "proved",
   "theorems": [
    "C20_padded_write",
    "C20_padded_roundtrip",
    "C20_stripping_defined",
    "C20_left_padding",
    "C20_overlong",
    "C20_fixed_buffer",
    "C20_fixed_buffer_short"
   ],
   "note": ""
  },
  {
   "property": "C21",
   "status": "proved",
   "theorems": [
    "C21_length_prefixed",
    "C21_integer_prefix",
    "C21_too_long",
    "C21_short_stream",
    "C21_str_padding_unusable"
   ],
   "note": ""
  },
  {
   "property": "C22",
   "status": "proved",
   "theorems": [
    "C22_counted_array",
    "C22_fixed_array",
    "C22_byte_counted_array",
    "C22_fixed_array_length_unchecked",
    "C22_bytes_as_array",
    "C22_text_as_array",
    "C22_not_iterable"
   ],
   "note": ""
  },
  {
   "property": "C23",
   "status": "proved",
   "theorems": [
    "C23_terminates",
    "C23_never_returns"
   ],
   "note": ""
  },
  {
   "property": "C24",
   "status": "proved",
   "theorems": [
    "C24_map_roundtrip",
    "C24_unknown_key",
    "C24_unknown_value",
    "C24_not_injective",
    "C24_not_fixed_size",
    "C24_list_key",
    "C24_list_value",
    "C24_list_image",
    "C24_list_image_error"
   ],
   "note": ""
  },
  {
   "property": "C25",
   "status": "proved",
   "theorems": [
    "C25_write_only_appends",
    "C25_failed_write_stops"
   ],
   "note": ""
  },
  {
   "property": "C26",
   "status": "proved",
   "theorems": [
    "C26_pointer_nowhere",
    "C26_pointer_outermost"
   ],
   "note": ""
  },
  {
   "property": "C27",
   "status": "proved",
   "theorems": [
    "C27_mapping_ignored",
    "C27_no_default",
    "C27_default_always",
    "C27_default_complete",
    "C27_list_key"
   ],
   "note": ""
  },
  {
   "property": "C28",
   "status": "proved",
   "theorems": [
    "C28_selector_sound",
    "C28_selector_complete"
   ],
   "note": ""
  },
  {
   "property": "C29",
   "status": "proved",
   "theorems": [
    "C29_struct_default_fresh",
    "C29_struct_instances_apart",
    "C29_struct_nested_default_shared",
    "C29_struct_instance_default_shared",
    "C29_buffer_default_shared",
    "C29_assigned_seen"
   ],
   "note": ""
  },
  {
   "property": "C30",
   "status": "proved",
   "theorems": [
    "C30_slices",
    "C30_index",
    "C30_to_bitstr",
    "C30_to_bytearray"
   ],
   "note": ""
  },
  {
   "property": "C31",
   "status": "proved",
   "theorems": [
    "C31_overwrite",
    "C31_resize",
    "C31_int"
   ],
   "note": ""
  },
  {
   "property": "C32",
   "status": "proved",
   "theorems": [
    "C32_extend",
    "C32_add",
    "C32_radd",
    "C32_append"
   ],
   "note": ""
  },
  {
   "property": "C33",
   "status": "proved",
   "theorems": [
    "C33_delete",
    "C33_delete_aligned",
    "C33_insert",
    "C33_insert_unaligned_loses"
   ],
   "note": ""
  },
  {
   "property": "C34",
   "status": "proved",
   "theorems": [
    "C34_has_overlaps",
    "C34_any_sort",
    "C34_sorted",
    "C34_empty_ranges_refuted"
   ],
   "note": ""
  },
  {
   "property": "C35",
   "status": "proved",
   "theorems": [
    "C35_byte_length",
    "C35_max_stop",
    "C35_byte_offset",
    "C35_byte_offset_zero",
    "C35_byte_offset_open",
    "C35_to_closed",
    "C35_one_range",
    "C35_order_not_total"
   ],
   "note": ""
  },
  {
   "property": "C36",
   "status": "proved",
   "theorems": [
    "C36_bit_of_range",
    "C36_slice_of_range",
    "C36_slice_of_open_range",
    "C36_slice_inside",
    "C36_bit_inside",
    "C36_slice_across",
    "C36_bit_at_boundary",
    "C36_slice_at_boundary",
    "C36_omitted_bound"
   ],
   "note": ""
  },
  {
   "property": "C37",
   "status": "proved",
   "theorems": [
    "C37_terminates",
    "C37_terminates_later",
    "C37_cyclic_exactly",
    "C37_agrees_with_plain_evaluation",
    "C37_plain_evaluation_is_computed",
    "C37_acyclic"
   ],
   "note": ""
  },
  {
   "property": "C38",
   "status": "proved",
   "theorems": [
    "C38_at_most_once",
    "C38_same_value",
    "C38_restored"
   ],
   "note": ""
  },
  {
   "property": "C39",
   "status": "proved",
   "theorems": [
    "C39_pack_writes_fields"
   ],
   "note": ""
  },
  {
   "property": "C40",
   "status": "proved",
   "theorems": [
    "C40_fixed_layout_roundtrip"
   ],
   "note": ""
  },
  {
   "property": "C41",
   "status": "proved",
   "theorems": [
    "C41_int_field_roundtrip",
    "C41_int_field_rejects",
    "C41_int_field_decodes",
    "C41_unspecified_four_bytes"
   ],
   "note": ""
  },
  {
   "property": "C42",
   "status": "proved",
   "theorems": [
    "C42_bit_field_roundtrip",
    "C42_bit_field_rejects",
    "C42_no_size",
    "C42_bit_field_negative",
    "C42_bit_field_decodes"
   ],
   "note": ""
  },
  {
   "property": "C43",
   "status": "proved",
   "theorems": [
    "C43_str_field_packs",
    "C43_str_field_roundtrip",
    "C43_str_field_unpacks",
    "C43_text_exists",
    "C43_text_arguments"
   ],
   "note": ""
  },
  {
   "property": "C44",
   "status": "proved",
   "theorems": [
    "C44_pack_concatenates",
    "C44_unpack_reads_elements",
    "C44_list_roundtrip",
    "C44_int_list_roundtrip"
   ],
   "note": ""
  },
  {
   "property": "C45",
   "status": "proved",
   "theorems": [
    "C45_list_terminates",
    "C45_rounds",
    "C45_list_stuck",
    "C45_diverges"
   ],
   "note": ""
  },
  {
   "property": "C46",
   "status": "proved",
   "theorems": [
    "C46_double_never_unpacks",
    "C46_single_roundtrip",
    "C46_other_sizes"
   ],
   "note": ""
  },
  {
   "property": "C47",
   "status": "proved",
   "theorems": [
    "C47_packed_size",
    "C47_class_size"
   ],
   "note": ""
  },
  {
   "property": "C48",
   "status": "proved",
   "theorems": [
    "C48_dependent_layout_roundtrip",
    "C48_length_prefix_roundtrip",
    "C48_packet_roundtrip"
   ],
   "note": ""
  },
  {
   "property": "C49",
   "status": "proved",
   "theorems": [
    "C49_pack_errors",
    "C49_unpack_errors",
    "C49_only_instruct_errors",
    "C49_other_errors_refuted"
   ],
   "note": "The unrestricted claim is refuted by C49_other_errors_refuted; C49_pack_errors and C49_unpack_errors say where any error comes from."
  },
  {
   "property": "C50",
   "status": "proved",
   "theorems": [
    "C50_unpack_conditions",
    "C50_conditional_roundtrip",
    "C50_skipped_field_none_refuted"
   ],
   "note": "The pack half is part of C39_pack_writes_fields."
  },
  {
   "property": "C51",
   "status": "proved",
   "theorems": [
    "C51_float_roundtrip",
    "C51_float_decoding_total"
   ],
   "note": ""
  },
  {
   "property": "C52",
   "status": "proved",
   "theorems": [
    "C52_rest_is_ignored"
   ],
   "note": ""
  },
  {
   "property": "C53",
   "status": "proved",
   "theorems": [
    "C53_zfill",
    "C53_zfill_junk"
   ],
   "note": ""
  },
  {
   "property": "C54",
   "status": "proved",
   "theorems": [
    "C54_input_get",
    "C54_open_range"
   ],
   "note": ""
  },
  {
   "property": "C55",
   "status": "proved",
   "theorems": [
    "C55_output_set",
    "C55_refused_range"
   ],
   "note": ""
  },
  {
   "property": "C56",
   "status": "proved",
   "theorems": [
    "C56_bytearray_roundtrip",
    "C56_bytearray_unpacks",
    "C56_bytearray_leaks_neighbour",
    "C56_bytearray_of_int",
    "C56_bytearray_of_list"
   ],
   "note": ""
  },
  {
   "property": "C57",
   "status": "proved",
   "theorems": [
    "C57_string_list_at_most_one",
    "C57_string_list_element"
   ],
   "note": ""
  },
  {
   "property": "C58",
   "status": "proved",
   "theorems": [
    "C58_bit_list_to_end"
   ],
   "note": ""
  },
  {
   "property": "C59",
   "status": "proved",
   "theorems": [
    "C59_reported_call_stack"
   ],
   "note": ""
  },
  {
   "property": "C60",
   "status": "proved",
   "theorems": [
    "C60_static_test",
    "C60_static_value"
   ],
   "note": ""
  },
  {
   "property": "C61",
   "status": "proved",
   "theorems": [
    "C61_nested_from_prefix",
    "C61_nested_exact",
    "C61_list_of_objects_roundtrip"
   ],
   "note": ""
  },
  {
   "property": "C62",
   "status": "proved",
   "theorems": [
    "C62_construction"
   ],
   "note": ""
  },
  {
   "property": "C63",
   "status": "proved",
   "theorems": [
    "C63_subclass_never_packs",
    "C63_own_size"
   ],
   "note": ""
  },
  {
   "property": "C64",
   "status": "proved",
   "theorems": [
    "C64_constructed_like_eager",
    "C64_default_ignored",
    "C64_any_assignment",
    "C64_constant_unreadable",
    "C64_grouped_constant",
    "C64_one_size_only"
   ],
   "note": ""
  },
  {
   "property": "C65",
   "status": "proved",
   "theorems": [
    "C65_named_float_types"
   ],
   "note": ""
  },
  {
   "property": "C66",
   "status": "proved",
   "theorems": [
    "C66_expression_value",
    "C66_operand_order"
   ],
   "note": ""
  },
  {
   "property": "C67",
   "status": "proved",
   "theorems": [
    "C67_plain_reference_and_constant",
    "C67_other_constants",
    "C67_two_constants",
    "C67_plain_references",
    "C67_mixed_references",
    "C67_boolean_operators",
    "C67_conditions_raise",
    "C67_chains",
    "C67_num_ref_of_constant",
    "C67_negated_plain_refuted"
   ],
   "note": "C67_negated_plain_refuted: -ref of a reference that is no number is NotImplemented and no error"
  },
  {
   "property": "C68",
   "status": "proved",
   "theorems": [
    "C68_where_positions",
    "C68_byte_slices",
    "C68_steps",
    "C68_indexes",
    "C68_bits_of_bytes",
    "C68_empty_list",
    "C68_values_out_of_order",
    "C68_bit_slices"
   ],
   "note": "Bits of scattered bytes are C36."
  },
  {
   "property": "C69",
   "status": "proved",
   "theorems": [
    "C69_read_objects_print",
    "C69_fields_shown",
    "C69_float_in_integer_field",
    "C69_absent_number_refuted",
    "C69_unset_fields"
   ],
   "note": "How Python prints numbers and byte strings is a parameter."
  },
  {
   "property": "C70",
   "status": "proved",
   "theorems": [
    "C70_fields_set",
    "C70_user_code_called",
    "C70_assigned_stays",
    "C70_constant_assignment"
   ],
   "note": ""
  },
  {
   "property": "C71",
   "status": "proved",
   "theorems": [
    "C71_keyword_call",
    "C71_positional_call",
    "C71_subclass_refuted",
    "C71_no_user_code"
   ],
   "note": "The expected property of subclasses is refuted."
  },
  {
   "property": "C72",
   "status": "proved",
   "theorems": [
    "C72_required_parameter",
    "C72_read_keeps_attributes",
    "C72_read_without_user_code"
   ],
   "note": "Without extra arguments to create_from_stream."
  },
  {
   "property": "C73",
   "status": "proved",
   "theorems": [
    "C73_bit_group",
    "C73_declared_group",
    "C73_positional_group",
    "C73_declared_size",
    "C73_no_bits",
    "C73_not_positional",
    "C73_mixed_group"
   ],
   "note": ""
  },
  {
   "property": "C74",
   "status": "proved",
   "theorems": [
    "C74_padded_string_default",
    "C74_fixed_buffer_default",
    "C74_fixed_array_default",
    "C74_rejected_defaults",
    "C74_constant_of_type",
    "C74_constant_without_type",
    "C74_byte_padding",
    "C74_object_constant_refuted"
   ],
   "note": ""
  },
  {
   "property": "C75",
   "status": "proved",
   "theorems": [
    "C75_buffer_length",
    "C75_negative_length_in_selector",
    "C75_array_count",
    "C75_array_bytes"
   ],
   "note": ""
  },
  {
   "property": "C76",
   "status": "proved",
   "theorems": [
    "C76_int_as_double",
    "C76_small_ints_exact",
    "C76_nearest_single_refuted",
    "C76_buffer_field"
   ],
   "note": ""
  },
  {
   "property": "C77",
   "status": "proved",
   "theorems": [
    "C77_set_after_unpack_not_stored",
    "C77_attribute_untouched",
    "C77_references_see_converted"
   ],
   "note": "what the code does; surely not what set_after_unpack is meant to do (see findings)"
  },
  {
   "property": "C78",
   "status": "proved",
   "theorems": [
    "C78_object_has_what_was_packed"
   ],
   "note": ""
  },
  {
   "property": "C79",
   "status": "proved",
   "theorems": [
    "C79_unpack_reads_fields",
    "C79_fixed_place",
    "C79_int_attribute",
    "C79_bits_attribute",
    "C79_bytes_attribute",
    "C79_fixed_layout_decodes"
   ],
   "note": ""
  },
  {
   "property": "C80",
   "status": "proved",
   "theorems": [
    "C80_integers_need_their_bytes",
    "C80_others_do_not"
   ],
   "note": "what the code does: truncation is not always noticed (see findings)"
  },
  {
   "property": "C81",
   "status": "proved",
   "theorems": [
    "C81_roundtrip",
    "C81_own_string_refuted",
    "C81_sizes_agree",
    "C81_size_needed",
    "C81_no_size",
    "C81_short_stream",
    "C81_short_stream_refuted"
   ],
   "note": "C81_own_string_refuted and C81_short_stream_refuted describe what the code does instead of what a user of the struct interface expects (see findings)"
  },
  {
   "property": "C82",
   "status": "proved",
   "theorems": [
    "C82_equality",
    "C82_int_constant",
    "C82_constant_by_value",
    "C82_inexact_constant_refuted",
    "C82_float_constant",
    "C82_int_images"
   ],
   "note": "C82_inexact_constant_refuted: a constant the type cannot hold exactly is written but never accepted"
  },
  {
   "property": "C83",
   "status": "proved",
   "theorems": [
    "C83_contexts_are_values",
    "C83_changes_stay_inside",
    "C83_empty_context",
    "C83_struct_context",
    "C83_constructor_shares_refuted"
   ],
   "note": "C83_constructor_shares_refuted: a dict with entries given to the constructor of WritableContext is shared, an empty one is not"
  },
  {
   "property": "C84",
   "status": "proved",
   "theorems": [
    "C84_read",
    "C84_read_end",
    "C84_write_inside",
    "C84_write_end",
    "C84_write_big",
    "C84_delete_end_refuted"
   ],
   "note": "C84_delete_end_refuted: del a[len(a)] does not raise, it removes the last byte"
  },
  {
   "property": "C85",
   "status": "proved",
   "theorems": [
    "C85_means",
    "C85_accepts",
    "C85_rejects_calls",
    "C85_rejects_arguments",
    "C85_rejects_positions",
    "C85_rejects_empty_positions",
    "C85_integer",
    "C85_names",
    "C85_fixed",
    "C85_bad_endian_refuted",
    "C85_no_endian_refuted",
    "C85_elements",
    "C85_str_keywords",
    "C85_float_keywords",
    "C85_buffer_keywords",
    "C85_list_keywords",
    "C85_kinds",
    "C85_arithmetic",
    "C85_json_keywords",
    "C85_bytearray_keywords"
   ],
   "note": "C85_bad_endian_refuted: an endianness that does not exist is accepted by the declaration, and then no value can be packed or unpacked; C85_no_endian_refuted: with endian=None an integer of three bytes is packed low byte first and unpacked high byte first"
  },
  {
   "property": "C86",
   "status": "proved",
   "theorems": [
    "C86_own_fields",
    "C86_one_owner",
    "C86_all_fields",
    "C86_shared_field_refuted",
    "C86_plain_subclass_refuted",
    "C86_construct"
   ],
   "note": "two natural expectations are false: C86_shared_field_refuted, C86_plain_subclass_refuted"
  },
  {
   "property": "C87",
   "status": "proved",
   "theorems": [
    "C87_positions",
    "C87_split_payload_roundtrip",
    "C87_short_payload",
    "C87_open_range_not_last",
    "C87_unaligned_refuted"
   ],
   "note": "C87_unaligned_refuted: without whole bytes before the open range the round trip fails; a payload exactly as long as the earlier ranges is not covered by the round trip theorem"
  },
  {
   "property": "C88",
   "status": "proved",
   "theorems": [
    "C88_selected",
    "C88_packs_own_class",
    "C88_layout_roundtrip",
    "C88_nested_exact",
    "C88_nested_from_prefix",
    "C88_object_codec",
    "C88_list_codec",
    "C88_message_roundtrip",
    "C88_records_roundtrip",
    "C88_list_result",
    "C88_none_forever_refuted",
    "C88_simple_selectors",
    "C88_simple_list_selectors",
    "C88_size_without_selector_refuted",
    "C88_no_size_without_selector",
    "C88_strings_take_list_size",
    "C88_sized_strings_read_first"
   ],
   "note": "the codec theorems are the premises that C88_layout_roundtrip needs for such fields; the refuted theorems describe what happens instead"
  },
  {
   "property": "C89",
   "status": "proved",
   "theorems": [
    "C89_packs",
    "C89_reads",
    "C89_roundtrip",
    "C89_nested",
    "C89_object",
    "C89_counted_list",
    "C89_chosen_list",
    "C89_mixed_list",
    "C89_page",
    "C89_page_made",
    "C89_overlapping"
   ],
   "note": "the layouts are described by class_packs, class_reads and class_layout_within (WideSpec.v); C89_page meets them for the SES configuration page of the repository's tests, with any number of enclosures and element types"
  },
  {
   "property": "C90",
   "status": "proved",
   "theorems": [
    "C90_known_size",
    "C90_size",
    "C90_is_packed_length",
    "C90_packed_length_refuted"
   ],
   "note": "C90_packed_length_refuted: with false conditions or inherited fields the size and the packed length are ends of different sets of fields; both are given"
  },
  {
   "property": "C91",
   "status": "proved",
   "theorems": [
    "C91_packs",
    "C91_unambiguous",
    "C91_unpacks",
    "C91_roundtrip",
    "C91_utf8_roundtrip",
    "C91_utf16_roundtrip_refuted",
    "C91_ascii",
    "C91_field",
    "C91_other_values",
    "C91_bytes_shown",
    "C91_other_values_distinct",
    "C91_unpacks_strings_only"
   ],
   "note": "C91_utf16_roundtrip_refuted: the high byte 0 of the last character is stripped. Other encodings, and str() of floats, lists and objects, are not modelled"
  },
  {
   "property": "C92",
   "status": "proved",
   "theorems": [
    "C92_pack_calls_once",
    "C92_unpack_calls_once",
    "C92_size_calls_once",
    "C92_pack_condition_called",
    "C92_unpack_condition_called",
    "C92_condition_sees"
   ],
   "note": "A call is counted by what the function does to the object"
  },
  {
   "property": "C93",
   "status": "proved",
   "theorems": [
    "C93_place_from_length",
    "C93_bytes_between",
    "C93_not_when_packing"
   ],
   "note": ""
  },
  {
   "property": "C94",
   "status": "proved",
   "theorems": [
    "C94_declared_class",
    "C94_written_by_own_class",
    "C94_subclass_read_as_base",
    "C94_field_behind_refuted",
    "C94_selector_size",
    "C94_selector_no_object",
    "C94_sum_array_selector",
    "C94_sum_array_size_refuted"
   ],
   "note": "The two _refuted theorems describe, for all classes, where reading back and the size in front go wrong"
  },
  {
   "property": "C95",
   "status": "proved",
   "theorems": [
    "C95_default_formats",
    "C95_own_class",
    "C95_fields_shown",
    "C95_int_format",
    "C95_caller_wins",
    "C95_one_text",
    "C95_no_object"
   ],
   "note": "How a format other than %d and %f makes text of a value is a parameter of the theorems"
  },
  {
   "property": "C96",
   "status": "proved",
   "theorems": [
    "C96_text",
    "C96_like_eager",
    "C96_bits_refuted",
    "C96_waiting",
    "C96_constant",
    "C96_new_refuted"
   ],
   "note": "C96_bits_refuted describes, for all such classes and inputs, the case that cannot be printed; histories in which a conversion to bytes fails are left out of C96_text"
  },
  {
   "property": "C97",
   "status": "proved",
   "theorems": [
    "C97_objects_pack_alike",
    "C97_pack_again",
    "C97_pack_again_without_functions",
    "C97_computed_attributes_ignored"
   ],
   "note": "C97_counter shows that a function that reads the attribute it is for is a real exception; objects nested in the object are values here (see C98 for what packing does to them)"
  },
  {
   "property": "C98",
   "status": "proved",
   "theorems": [
    "C98_same_bytes",
    "C98_objects_inside",
    "C98_pack_again",
    "C98_failed_objects"
   ],
   "note": "only len() may be applied to a field that holds objects; references that look into such an object are outside (holds_objects)"
  },
  {
   "property": "C99",
   "status": "proved",
   "theorems": [
    "C99_number_field",
    "C99_length_prefixed_string",
    "C99_length_prefixed_buffer",
    "C99_padded_string",
    "C99_fixed_buffer",
    "C99_fixed_array",
    "C99_counted_array",
    "C99_byte_counted_array",
    "C99_declared_default",
    "C99_bit_positions"
   ],
   "note": "bit groups by widths are C73_declared_group; left-padded strings do not round-trip (C20_left_padding)"
  },
  {
   "property": "C100",
   "status": "proved",
   "theorems": [
    "C100_reference_value",
    "C100_errors",
    "C100_false_values"
   ],
   "note": ""
  },
  {
   "property": "C101",
   "status": "proved",
   "theorems": [
    "C101_roundtrip",
    "C101_writes",
    "C101_reads",
    "C101_reads_all",
    "C101_white_exists"
   ],
   "note": "json.dumps and json.loads are parameters"
  },
  {
   "property": "C102",
   "status": "proved",
   "theorems": [
    "C102_pack_error",
    "C102_unpack_error",
    "C102_always_reported",
    "C102_other_errors",
    "C102_no_error"
   ],
   "note": "the texts of references and values are parameters; C102_other_errors: a value whose repr raises replaces the report"
  },
  {
   "property": "C103",
   "status": "proved",
   "theorems": [
    "C103_repr",
    "C103_inherited_refuted",
    "C103_no_fields_refuted"
   ],
   "note": "the repr of values is a parameter; C103_inherited_refuted and C103_no_fields_refuted: what a user may not expect"
  },
  {
   "property": "C104",
   "status": "proved",
   "theorems": [
    "C104_unambiguous",
    "C104_notation",
    "C104_calls",
    "C104_no_text_refuted"
   ],
   "note": "C104_no_text_refuted: the references without a text of their own in Python 3"
  },
  {
   "property": "C105",
   "status": "proved",
   "theorems": [
    "C105_as_defaults",
    "C105_number_refuted",
    "C105_overwritten",
    "C105_left_out",
    "C105_other_names",
    "C105_none",
    "C105_from_string",
    "C105_lazy",
    "C105_lazy_none",
    "C105_lazy_number_refuted",
    "C105_lazy_number_first"
   ],
   "note": "C105_number_refuted: numbers do not take the extra arguments that structs hand on"
  },
  {
   "property": "C106",
   "status": "proved",
   "theorems": [
    "C106_sum",
    "C106_constants",
    "C106_plain_references",
    "C106_positions",
    "C106_other_uses",
    "C106_index",
    "C106_one_byte_refuted",
    "C106_number_references_refuted",
    "C106_reference_plus_position_refuted",
    "C106_mixed_list_refuted"
   ],
   "note": "C106_one_byte_refuted: bytes_ref[x] raises AttributeError in comparisons; C106_number_references_refuted, C106_reference_plus_position_refuted, C106_mixed_list_refuted: expressions of fields and positions that the class body accepts but that cannot be evaluated"
  },
  {
   "property": "C107",
   "status": "proved",
   "theorems": [
    "C107_lazy_is_eager",
    "C107_broken",
    "C107_untouched",
    "C107_decoded"
   ],
   "note": ""
  },
  {
   "property": "C108",
   "status": "proved",
   "theorems": [
    "C108_only_fields",
    "C108_pack_assigns",
    "C108_pack_stops",
    "C108_unpack_stops",
    "C108_truncated",
    "C108_complete_integers",
    "C108_again"
   ],
   "note": ""
  },
  {
   "property": "C109",
   "status": "proved",
   "theorems": [
    "C109_values",
    "C109_statement",
    "C109_extend",
    "C109_add_self",
    "C109_slice",
    "C109_share",
    "C109_extend_self_refuted",
    "C109_insert_self_refuted",
    "C109_shared_seen",
    "C109_shared_window_refuted"
   ],
   "note": "expectations that fail are described by the _refuted theorems; arrays that are their own argument only for whole bytes"
  },
  {
   "property": "C110",
   "status": "proved",
   "theorems": [
    "C110_history",
    "C110_bytes_first",
    "C110_touched_first",
    "C110_bits_refuted",
    "C110_constructed"
   ],
   "note": "the expectation that fails is described by the _refuted theorem"
  },
  {
   "property": "C111",
   "status": "proved",
   "theorems": [
    "C111_history",
    "C111_bytes_first",
    "C111_inner_refuted",
    "C111_constructed",
    "C111_missing_value"
   ],
   "note": "the expectation that fails is described by the _refuted theorem; constant and optional fields directly in lazy containers are left out"
  },
  {
   "property": "C112",
   "status": "proved",
   "theorems": [
    "C112_only_declared_kinds",
    "C112_numbers",
    "C112_padded_strings",
    "C112_prefixed_strings",
    "C112_no_trace_refuted",
    "C112_arrays_and_objects"
   ],
   "note": "the expectation that fails is described by the _refuted theorem"
  },
  {
   "property": "C113",
   "status": "proved",
   "theorems": [
    "C113_reads",
    "C113_errors",
    "C113_settles",
    "C113_ends",
    "C113_alone",
    "C113_race_refuted",
    "C113_lost_update_refuted",
    "C113_after_to_bytes",
    "C113_torn_bytes_refuted"
   ],
   "note": "the expectations that fail are described by the _refuted theorems; each look at or change of the instance dictionary is one step"
  },
  {
   "property": "C114",
   "status": "proved",
   "theorems": [
    "C114_lists_make_no_difference",
    "C114_spelled_out",
    "C114_like_eager",
    "C114_constructed",
    "C114_error_deferred",
    "C114_repr",
    "C114_empty_list_refuted"
   ],
   "note": "the expectation that fails is described by the _refuted theorem"
  },
  {
   "property": "C115",
   "status": "proved",
   "theorems": [
    "C115_reading",
    "C115_index",
    "C115_index_refuted",
    "C115_pop",
    "C115_pop_last",
    "C115_pop_refuted",
    "C115_remove",
    "C115_remove_refuted",
    "C115_remove_absent",
    "C115_clear",
    "C115_clear_refuted",
    "C115_reverse",
    "C115_reverse_refuted"
   ],
   "note": "the expectations that fail are described by the _refuted theorems; the loops of collections.abc are modelled with fuel and the theorems say for which inputs they end"
  },
  {
   "property": "C116",
   "status": "proved",
   "theorems": [
    "C116_reported_again_refuted",
    "C116_other_fields",
    "C116_values_stay",
    "C116_short_input_refuted"
   ],
   "note": "the expectations that fail are described by the _refuted theorems: the repeated error for objects that are one lazy container with ordinary and anonymous fields, the short input for objects made of lazy containers only"
  }
 ]
}