{
 "claims": [
  {
   "property": "C01",
   "status": "proved",
   "theorems": [
    "C01_null_accepted",
    "C01_null_rejected"
   ],
   "note": ""
  },
  {
   "property": "C02",
   "status": "proved",
   "theorems": [
    "C02_integer_native_accepts",
    "C02_integer_native_errors"
   ],
   "note": ""
  },
  {
   "property": "C03",
   "status": "proved",
   "theorems": [
    "C03_integer_text_unserialized",
    "C03_integer_str_is_text",
    "C03_integer_round_trip",
    "C03_integer_rejects_bool"
   ],
   "note": ""
  },
  {
   "property": "C04",
   "status": "proved",
   "theorems": [
    "C04_float_native_accepts",
    "C04_float_nan_accepted",
    "C04_float_native_errors"
   ],
   "note": ""
  },
  {
   "property": "C05",
   "status": "proved",
   "theorems": [
    "C05_decimal_text_unserialized",
    "C05_decimal_round_trip",
    "C05_decimal_native_exact",
    "C05_decimal_nan"
   ],
   "note": ""
  },
  {
   "property": "C06",
   "status": "proved",
   "theorems": [
    "C06_text_exact",
    "C06_text_invalid"
   ],
   "note": ""
  },
  {
   "property": "C07",
   "status": "proved",
   "theorems": [
    "C07_binary_native_exact",
    "C07_binary_round_trip"
   ],
   "note": ""
  },
  {
   "property": "C08",
   "status": "partial",
   "theorems": [
    "C08_binary_malformed_refuted",
    "C08_binary_malformed_partial"
   ],
   "note": "REFUTED as documented: binascii.Error escapes on malformed base64; the partial theorem characterises when."
  },
  {
   "property": "C09",
   "status": "proved",
   "theorems": [
    "C09_date_native_exact",
    "C09_date_round_trip",
    "C09_date_text_accepted",
    "C09_date_text_denotes"
   ],
   "note": ""
  },
  {
   "property": "C10",
   "status": "proved",
   "theorems": [
    "C10_time_native_exact",
    "C10_time_round_trip",
    "C10_time_text_denotes"
   ],
   "note": ""
  },
  {
   "property": "C11",
   "status": "partial",
   "theorems": [
    "C11_datetime_instants_partial",
    "C11_datetime_serializes",
    "C11_datetime_instants_refuted",
    "C11_datetime_text_denotes"
   ],
   "note": "REFUTED as stated for DateTime(utc=False) fields when the local zone has daylight saving time (the LocalTimezone tzinfo misjudges UTC values around a change); proved for UTC fields, for naive and local values, and for zones without daylight saving"
  },
  {
   "property": "C12",
   "status": "proved",
   "theorems": [
    "C12_datetime_bounds_exact",
    "C12_datetime_bounds_local"
   ],
   "note": ""
  },
  {
   "property": "C13",
   "status": "proved",
   "theorems": [
    "C13_enumeration_exact"
   ],
   "note": ""
  },
  {
   "property": "C14",
   "status": "proved",
   "theorems": [
    "C14_boolean_exact"
   ],
   "note": ""
  },
  {
   "property": "C15",
   "status": "proved",
   "theorems": [
    "C15_token_exact",
    "C15_token_not_text"
   ],
   "note": ""
  },
  {
   "property": "C16",
   "status": "proved",
   "theorems": [
    "C16_uuid_exact"
   ],
   "note": ""
  },
  {
   "property": "C17",
   "status": "proved",
   "theorems": [
    "C17_email_exact",
    "C17_email_not_text",
    "C17_email_extended_exact"
   ],
   "note": ""
  },
  {
   "property": "C18",
   "status": "partial",
   "theorems": [
    "C18_constant_exact",
    "C18_constant_ignored_by_structural",
    "C18_constant_enumeration_refuted"
   ],
   "note": "Proved for all non structural fields but Enumeration, for which it is REFUTED: a violated constant raises KeyError."
  },
  {
   "property": "C19",
   "status": "proved",
   "theorems": [
    "C19_sequence_accepts",
    "C19_sequence_errors"
   ],
   "note": ""
  },
  {
   "property": "C20",
   "status": "proved",
   "theorems": [
    "C20_sequence_unique_result",
    "C20_sequence_unique_rejects",
    "C20_hashable_exact"
   ],
   "note": ""
  },
  {
   "property": "C21",
   "status": "proved",
   "theorems": [
    "C21_map_accepts",
    "C21_map_errors",
    "C21_map_order_irrelevant"
   ],
   "note": ""
  },
  {
   "property": "C22",
   "status": "partial",
   "theorems": [
    "C22_map_loses_entries_refuted",
    "C22_map_keeps_entries_partial"
   ],
   "note": "REFUTED: keys normalised by a key field may collide, which loses entries and may hide the failure of a value; proved for maps without a key field."
  },
  {
   "property": "C23",
   "status": "proved",
   "theorems": [
    "C23_tuple_accepts",
    "C23_tuple_errors"
   ],
   "note": ""
  },
  {
   "property": "C24",
   "status": "proved",
   "theorems": [
    "C24_structure_accepts"
   ],
   "note": ""
  },
  {
   "property": "C25",
   "status": "proved",
   "theorems": [
    "C25_structure_errors",
    "C25_structure_invalid"
   ],
   "note": ""
  },
  {
   "property": "C26",
   "status": "proved",
   "theorems": [
    "C26_structure_defaults",
    "C26_structure_partial_run"
   ],
   "note": ""
  },
  {
   "property": "C27",
   "status": "partial",
   "theorems": [
    "C27_ignore_null_absence_refuted",
    "C27_ignore_null_partial"
   ],
   "note": "REFUTED: a null for an ignore_null field is dropped without applying the default or enforcing required; proved equal to absence for optional fields without default."
  },
  {
   "property": "C28",
   "status": "proved",
   "theorems": [
    "C28_polymorphic_selects",
    "C28_polymorphic_discriminator"
   ],
   "note": ""
  },
  {
   "property": "C29",
   "status": "proved",
   "theorems": [
    "C29_structure_key_order",
    "C29_structure_key_order_undefined",
    "C29_structure_key_order_omits"
   ],
   "note": ""
  },
  {
   "property": "C30",
   "status": "proved",
   "theorems": [
    "C30_union_exact"
   ],
   "note": ""
  },
  {
   "property": "C31",
   "status": "proved",
   "theorems": [
    "C31_process_sound"
   ],
   "note": ""
  },
  {
   "property": "C32",
   "status": "partial",
   "theorems": [
    "C32_process_complete_partial",
    "C32_process_complete_refuted",
    "C32_order_irrelevant",
    "C32_process_complete_reordered_partial"
   ],
   "note": "REFUTED as stated: a Union stops at the first alternative that rejects for another reason than type (process_complete_refuted). Proved for all schemas without preprocessors, ignored nulls, constants on normalising fields, and unions of which an earlier alternative may stand in the way of a later one; conforming dicts list their entries in the order of the schema (process_complete_partial); for any other order the same value is returned (process_complete_reordered_partial, order_irrelevant). Email fields that are not extended are covered under [lowers]: what lower-casing gives above ASCII is lower case and no separator."
  },
  {
   "property": "C33",
   "status": "partial",
   "theorems": [
    "C33_process_idempotent_partial",
    "C33_process_idempotent_refuted"
   ],
   "note": "REFUTED as stated: a constant on a Text field that strips (process_idempotent_refuted). Proved for all schemas as in C32 (process_idempotent_partial), so also for unions whose alternatives do not stand in each other's way; Email fields as in C32."
  },
  {
   "property": "C34",
   "status": "partial",
   "theorems": [
    "C34_serialization_round_trip_partial",
    "C34_union_serialization_round_trip",
    "C34_serialization_round_trip_refuted",
    "C34_surrogates_round_trip_partial",
    "C34_definition_round_trip",
    "C34_round_trip_reordered_partial"
   ],
   "note": "Proved for all schemas of round-trippable classes (no Error; Surrogates inside values and inside the contents of other surrogates, to any depth, if their classes are identified by tokens and their schemas are structures without the reserved keys; unions whose alternatives can be told apart by the types they take), without preprocessors, and all values whose serialized form is faithful; for other unions, values that earlier alternatives refuse natively and serialized; for Definition fields up to documentation. REFUTED without these exclusions: microseconds are dropped, two NaNs of a unique sequence serialize alike, a date in a union after a text comes back as a text, errors come back as other errors."
  },
  {
   "property": "C35",
   "status": "partial",
   "theorems": [
    "C35_error_locations_partial",
    "C35_error_locations_refuted"
   ],
   "note": "REFUTED as stated for missing and unknown keys, which are reported under the path of their container (error_locations_refuted); everything else proved (error_locations_partial)."
  },
  {
   "property": "C36",
   "status": "partial",
   "theorems": [
    "C36_escaping_exceptions",
    "C36_tame_schemas_orderly_partial",
    "C36_only_structural_errors_refuted",
    "C36_class_exceptions",
    "C36_surrogate_own_exceptions"
   ],
   "note": "REFUTED as stated (unique sequence of unhashable items raises TypeError). Proved: where an escaping exception can come from, that tame schemas never let any escape, and for each class (for surrogates: natively, inbound and outbound) exactly which exceptions escape from it without preprocessor over tame subfields and schemas."
  },
  {
   "property": "C37",
   "status": "proved",
   "theorems": [
    "C37_rejections_carry_a_reason",
    "C37_map_collapse_without_reason"
   ],
   "note": ""
  },
  {
   "property": "C38",
   "status": "proved",
   "theorems": [
    "C38_placeholder_transparent",
    "C38_outcome_unique",
    "C38_undefined_sequence",
    "C38_undefined_tuple",
    "C38_undefined_union",
    "C38_undefined_map",
    "C38_undefined_structure"
   ],
   "note": ""
  },
  {
   "property": "C39",
   "status": "proved",
   "theorems": [
    "C39_error_serialize_exact",
    "C39_error_serialize_leaf"
   ],
   "note": ""
  },
  {
   "property": "C40",
   "status": "proved",
   "theorems": [
    "C40_error_reread_own",
    "C40_error_reread_structural"
   ],
   "note": ""
  },
  {
   "property": "C41",
   "status": "proved",
   "theorems": [
    "C41_serialize_force_current",
    "C41_serialize_latest",
    "C41_serialize_first"
   ],
   "note": ""
  },
  {
   "property": "C42",
   "status": "proved",
   "theorems": [
    "C42_format_errors_enumerates",
    "C42_error_text_lists",
    "C42_substantive_exact"
   ],
   "note": ""
  },
  {
   "property": "C43",
   "status": "partial",
   "theorems": [
    "C43_describe_reconstruct_partial",
    "C43_describe_reconstruct_faithful",
    "C43_describe_local_bound_refuted",
    "C43_describe_empty_default_refuted",
    "C43_describe_fieldtype_refuted",
    "C43_describe_early_bound_refuted",
    "C43_descriptions_plain",
    "C43_description_flags",
    "C43_description_nested",
    "C43_undefined_not_described"
   ],
   "note": "REFUTED in full: DateTime bounds in local time change, empty defaults of structural fields are lost, structures with a field named fieldtype cannot be rebuilt, and unpadded years break. Proved for all describable fields (which excludes exactly these)."
  },
  {
   "property": "C44",
   "status": "partial",
   "theorems": [
    "C44_reconstruct_refuted",
    "C44_reconstruct_effect_partial"
   ],
   "note": "REFUTED: reconstruct pops 'fieldtype' from the caller's dict, also from nested ones (reconstruct_refuted). Proved instead: nothing but 'fieldtype' entries is removed, and a second use raises ValueError."
  },
  {
   "property": "C45",
   "status": "partial",
   "theorems": [
    "C45_clone_replaces_partial",
    "C45_clone_refuted",
    "C45_clone_placeholder_refuted",
    "C45_clone_errors_email",
    "C45_clone_errors_exact",
    "C45_clone_errors_refuted"
   ],
   "note": "REFUTED in general: a field made with errors of its own raises AttributeError when cloned (clone_errors_refuted), a DateTime bound that is a skipped local wall time moves when cloned, and a field with an unresolved placeholder cannot be cloned. Proved for all other fields and for replaced parameters that are not fields. That the original is unchanged holds by construction, since fields are values in the model (clone builds a new object, field.py:248-263)."
  },
  {
   "property": "C46",
   "status": "partial",
   "theorems": [
    "C46_filter_drops",
    "C46_filter_keeps_scalars",
    "C46_filter_prunes_partial",
    "C46_filter_cannot",
    "C46_filter_empty_refuted",
    "C46_filter_any_refuted"
   ],
   "note": "REFUTED in two cases: a structure (or variant of a polymorphic one) none of whose fields is selected is returned unchanged (C46_filter_empty_refuted); children of structures are tested in all mode even when any was asked for (C46_filter_any_refuted). Proved otherwise, polymorphic structures included."
  },
  {
   "property": "C47",
   "status": "partial",
   "theorems": [
    "C47_transform_rewrites_partial",
    "C47_transform_polymorphic_refuted"
   ],
   "note": "REFUTED for polymorphic structures: AttributeError (C47_transform_polymorphic_refuted). Proved for all other trees."
  },
  {
   "property": "C48",
   "status": "proved",
   "theorems": [
    "C48_screen_exact",
    "C48_screen_attributes",
    "C48_screen_class_attributes"
   ],
   "note": ""
  },
  {
   "property": "C49",
   "status": "partial",
   "theorems": [
    "C49_extend_exact",
    "C49_replace_exact",
    "C49_extend_frame_partial",
    "C49_extend_aliasing_refuted"
   ],
   "note": "REFUTED for 'the original structure is unchanged' when the argument shares a field with the structure (C49_extend_aliasing_refuted); otherwise proved, with an explicit heap of field objects."
  },
  {
   "property": "C50",
   "status": "proved",
   "theorems": [
    "C50_insert_exact",
    "C50_remove_exact",
    "C50_merge_stops",
    "C50_merge_prefers",
    "C50_edits_keep",
    "C50_edits_create_only",
    "C50_edits_distinct"
   ],
   "note": ""
  },
  {
   "property": "C51",
   "status": "proved",
   "theorems": [
    "C51_generate_defaults_exact",
    "C51_generate_defaults_polymorphic"
   ],
   "note": ""
  },
  {
   "property": "C52",
   "status": "proved",
   "theorems": [
    "C52_constructors_accept",
    "C52_nonempty_implies",
    "C52_constructors_sound",
    "C52_structure_constructed",
    "C52_structure_polymorphic_constructed",
    "C52_structure_polymorphic_accepted"
   ],
   "note": ""
  },
  {
   "property": "C53",
   "status": "partial",
   "theorems": [
    "C53_structure_extract_exact",
    "C53_polymorphic_extract_exact",
    "C53_polymorphic_extract_falsy",
    "C53_map_extract_exact",
    "C53_sequence_extract_exact",
    "C53_tuple_extract_exact",
    "C53_extract_refuses",
    "C53_extract_conforming",
    "C53_extract_union_refuted",
    "C53_union_extract_exact"
   ],
   "note": "REFUTED for unions: extracting with Union(Structure a, Structure b) takes the first structure and loses the entries of the second (extract_union_refuted). Proved otherwise; the identity on conforming values excludes unions, key orders and polymorphic identities that are falsy."
  },
  {
   "property": "C54",
   "status": "partial",
   "theorems": [
    "C54_scalar_instantiate_exact",
    "C54_sequence_instantiate_exact",
    "C54_tuple_instantiate_exact",
    "C54_map_instantiate_exact",
    "C54_structure_instantiate_exact",
    "C54_instantiate_identity_partial",
    "C54_instantiate_union_refuted"
   ],
   "note": "REFUTED for unions: Union.instantiate takes no key and raises (instantiate_union_refuted). Proved for all other classes; the identity on conforming values excludes unions and key orders."
  },
  {
   "property": "C55",
   "status": "proved",
   "theorems": [
    "C55_extract_instantiate_inverse"
   ],
   "note": ""
  },
  {
   "property": "C56",
   "status": "partial",
   "theorems": [
    "C56_interpolate_native",
    "C56_scalar_interpolate_exact",
    "C56_text_interpolate_exact",
    "C56_number_interpolate_exact",
    "C56_enumeration_interpolate_exact",
    "C56_sequence_interpolate_exact",
    "C56_tuple_interpolate_exact",
    "C56_map_interpolate_exact",
    "C56_structure_interpolate_exact",
    "C56_polymorphic_interpolate_exact",
    "C56_container_interpolate_refuses",
    "C56_interpolate_identity_partial",
    "C56_union_interpolate_fails",
    "C56_interpolate_union_refuted"
   ],
   "note": "REFUTED for unions: Union.interpolate refers to an undefined name and always fails (union_interpolate_fails, interpolate_union_refuted); Field, Object and Error fields refuse values that are not strings. Proved otherwise. jinja2's evaluation and rendering are uninterpreted functions."
  },
  {
   "property": "C57",
   "status": "proved",
   "theorems": [
    "C57_simple_interpolation_exact",
    "C57_reference_unique",
    "C57_template_interpolation_exact"
   ],
   "note": ""
  },
  {
   "property": "C58",
   "status": "proved",
   "theorems": [
    "C58_structuredtext_roundtrip"
   ],
   "note": ""
  },
  {
   "property": "C59",
   "status": "proved",
   "theorems": [
    "C59_structuredtext_terminates",
    "C59_structure_matched"
   ],
   "note": ""
  },
  {
   "property": "C60",
   "status": "partial",
   "theorems": [
    "C60_structuredtext_texts_refuted",
    "C60_structuredtext_single_text_partial"
   ],
   "note": "REFUTED: ['a,b'] and ['a','b'], [''] and [], 'true' and True, 1 and '1' have one text, and a text with brackets beside a list is not read back at all (structuredtext_texts_refuted); single texts are preserved (structuredtext_single_text_partial)."
  },
  {
   "property": "C61",
   "status": "proved",
   "theorems": [
    "C61_urlencoded_roundtrip",
    "C61_urlencoded_query_chars",
    "C61_urlencoded_refuses",
    "C61_urlencoded_valueless",
    "C61_urlencoded_fields"
   ],
   "note": ""
  },
  {
   "property": "C62",
   "status": "proved",
   "theorems": [
    "C62_yaml_sequence_blocks",
    "C62_yaml_structure_blocks",
    "C62_yaml_writes",
    "C62_yaml_refuses",
    "C62_yaml_injective",
    "C62_yaml_quoting_ambiguous",
    "C62_yaml_text_scalar",
    "C62_yaml_text_unsafe",
    "C62_yaml_long_text"
   ],
   "note": ""
  },
  {
   "property": "C63",
   "status": "proved",
   "theorems": [
    "C63_csv_roundtrip",
    "C63_csv_unknown_column",
    "C63_csv_refuses",
    "C63_csv_reads_exactly",
    "C63_csv_refuses_nul",
    "C63_csv_line_ends_lost",
    "C63_csv_unclosed",
    "C63_csv_columns_and_path"
   ],
   "note": ""
  },
  {
   "property": "C64",
   "status": "proved",
   "theorems": [
    "C64_xml_tree_roundtrip",
    "C64_xml_roundtrip",
    "C64_xml_union_refused",
    "C64_xml_unknown_entry",
    "C64_xml_polymorphic_refused",
    "C64_xml_undefined_refused",
    "C64_xml_texts_refused",
    "C64_xml_grammar"
   ],
   "note": ""
  },
  {
   "property": "C65",
   "status": "partial",
   "theorems": [
    "C65_format_registered",
    "C65_format_registered_only",
    "C65_formats_registered",
    "C65_builtin_formats",
    "C65_builtin_names",
    "C65_schema_needed",
    "C65_format_of_extension",
    "C65_format_without_extension",
    "C65_format_unknown",
    "C65_format_of_class",
    "C65_extension_case_refuted",
    "C65_field_formats"
   ],
   "note": "REFUTED for extensions registered with capitals (extension_case_refuted): the extension of the path is lower-cased before the lookup, that of the format is not. Otherwise proved in full."
  },
  {
   "property": "C66",
   "status": "partial",
   "theorems": [
    "C66_write_then_read",
    "C66_write_then_read_plain",
    "C66_write_encodes",
    "C66_json_file",
    "C66_read_missing",
    "C66_read_unreadable",
    "C66_csv_files_unreadable",
    "C66_csv_file_refuted"
   ],
   "note": "REFUTED for CSV files under Python 3 (csv_file_refuted, csv_files_unreadable: text mode turns the line ends into \\n, Csv.unserialize splits at \\r\\n). Proved in full for the general case, relative to line end translation, and for JSON files. yaml.load is a parameter."
  },
  {
   "property": "C67",
   "status": "proved",
   "theorems": [
    "C67_write_validates_first",
    "C67_write_refused",
    "C67_write_truncates",
    "C67_write_outcomes"
   ],
   "note": ""
  },
  {
   "property": "C68",
   "status": "proved",
   "theorems": [
    "C68_traverse_to_key_exact",
    "C68_set_nested_value_exact"
   ],
   "note": ""
  },
  {
   "property": "C69",
   "status": "proved",
   "theorems": [
    "C69_recursive_merge_leaves"
   ],
   "note": ""
  },
  {
   "property": "C70",
   "status": "proved",
   "theorems": [
    "C70_indent_lines",
    "C70_minimize_string_words",
    "C70_minimize_string_idempotent",
    "C70_abbreviate_exact",
    "C70_pluralize_singular",
    "C70_pluralize_plural",
    "C70_pluralize_line"
   ],
   "note": ""
  },
  {
   "property": "C71",
   "status": "partial",
   "theorems": [
    "C71_element_round_trip_partial",
    "C71_element_serialized_round_trip_partial",
    "C71_plain_instance_exact",
    "C71_polymorphic_instance_exact",
    "C71_scalar_element_exact",
    "C71_variant_exact",
    "C71_element_round_trip_refuted",
    "C71_element_absent_constant_refuted",
    "C71_unserialized_instance",
    "C71_polymorphic_without_identity"
   ],
   "note": "REFUTED for null entries (element_round_trip_refuted: they are dropped by extraction) and for absent keys with a constant (element_absent_constant_refuted: the constant appears). Proved without those and without unions, for elements at any depth, plain and polymorphic; instances, subclasses and definition errors exactly."
  },
  {
   "property": "C72",
   "status": "partial",
   "theorems": [
    "C72_versioned_round_trip_partial",
    "C72_dynamic_round_trip_partial",
    "C72_bare_round_trip_partial",
    "C72_surrogate_serialize_refuted",
    "C72_surrogate_unserialized_twice_refuted",
    "C72_versioned_serialize_exact",
    "C72_versioned_unserialize_exact",
    "C72_surrogate_refuses",
    "C72_constructed_exact",
    "C72_construct_refuses",
    "C72_construct_parameters",
    "C72_acquire_exact"
   ],
   "note": "REFUTED as stated: under Python 3 the metaclass of surrogate is ignored, so a class has no attribute 'surrogate' unless it defines one, and serialization is then an AttributeError; a surrogate given where a serialized one is expected loses its class, schema and version. Proved: the round trips of versioned, dynamic and bare surrogates of classes with the attribute, whose schemas are structures without the reserved keys; exact unserialization, refusals, construction and acquisition."
  },
  {
   "property": "C73",
   "status": "proved",
   "theorems": [
    "C73_visit_exact",
    "C73_visit_rejects",
    "C73_visit_malformed"
   ],
   "note": ""
  },
  {
   "property": "C74",
   "status": "proved",
   "theorems": [
    "C74_json_roundtrip",
    "C74_json_documents",
    "C74_json_refuses",
    "C74_json_reads_or_refuses",
    "C74_json_reread",
    "C74_json_grammar"
   ],
   "note": ""
  },
  {
   "property": "C75",
   "status": "proved",
   "theorems": [
    "C75_integer_from_float",
    "C75_integer_from_decimal",
    "C75_decimal_from_number",
    "C75_native_not_converted",
    "C75_only_texts_are_read",
    "C75_object_from_text",
    "C75_definition_from_description",
    "C75_decimal_from_triple",
    "C75_digits_of_other_scripts",
    "C75_underscores_between_digits",
    "C75_underscores_elsewhere_refused"
   ],
   "note": ""
  },
  {
   "property": "C76",
   "status": "proved",
   "theorems": [
    "C76_has_required_fields_exact",
    "C76_has_required_fields_meaning"
   ],
   "note": ""
  },
  {
   "property": "C77",
   "status": "proved",
   "theorems": [
    "C77_redefine_exact"
   ],
   "note": ""
  },
  {
   "property": "C78",
   "status": "proved",
   "theorems": [
    "C78_masked_values_hidden",
    "C78_flat_dict_shown",
    "C78_flat_list_shown",
    "C78_abbreviating_raises",
    "C78_structure_shown",
    "C78_everything_shown"
   ],
   "note": ""
  },
  {
   "property": "C79",
   "status": "partial",
   "theorems": [
    "C79_message_built",
    "C79_messages_of_a_run",
    "C79_invalid_without_values",
    "C79_template_filled",
    "C79_errors_given",
    "C79_surrogate_message_refuted",
    "C79_datetime_bound_message_refuted"
   ],
   "note": "REFUTED: the message for a surrogate outside the valid ones cannot be built (KeyError), and the message about a DateTime bound shows local time with 'Z'. Proved for every other token and field class, for errors given to constructors, and for the formatting of templates in general."
  },
  {
   "property": "C80",
   "status": "partial",
   "theorems": [
    "C80_fields_through_json_partial",
    "C80_fields_in_json_files_partial",
    "C80_fields_refused_by_json",
    "C80_binary_as_json",
    "C80_fields_through_json_refuted",
    "C80_surrogates_through_json_partial",
    "C80_surrogates_in_json_files_partial",
    "C80_json_reordered_partial"
   ],
   "note": "REFUTED without exclusions: Binary values cannot be written as JSON, Error fields cannot read what they wrote, null keys become the text 'null'. Proved for all other schemas and values ([faithful], [json_faithful]), surrogates included at any depth ([mailable]: classes identified by tokens, schemas that are structures without the reserved keys); unions whose alternatives cannot be told apart by type are not covered."
  },
  {
   "property": "C81",
   "status": "proved",
   "theorems": [
    "C81_constructors_store"
   ],
   "note": ""
  },
  {
   "property": "C82",
   "status": "proved",
   "theorems": [
    "C82_reconstruct_dispatch",
    "C82_reconstruct_exact"
   ],
   "note": ""
  },
  {
   "property": "C83",
   "status": "proved",
   "theorems": [
    "C83_import_dotted",
    "C83_import_colon",
    "C83_import_outcomes"
   ],
   "note": ""
  },
  {
   "property": "C84",
   "status": "partial",
   "theorems": [
    "C84_identify_import_partial",
    "C84_identify_import_refuted",
    "C84_object_field_round_trip_partial"
   ],
   "note": "REFUTED: classes of the main module have names that cannot be imported, and a module with the name of a class hides it. Proved for objects at home in their module."
  },
  {
   "property": "C85",
   "status": "proved",
   "theorems": [
    "C85_render_nests",
    "C85_render_keeps"
   ],
   "note": ""
  },
  {
   "property": "C86",
   "status": "proved",
   "theorems": [
    "C86_document_says"
   ],
   "note": ""
  },
  {
   "property": "C87",
   "status": "partial",
   "theorems": [
    "C87_number_bounds_documented_partial",
    "C87_text_documented",
    "C87_sequence_lengths_documented",
    "C87_decimal_bounds_refuted",
    "C87_decimal_bounds_as_they_are",
    "C87_moment_bounds_undocumented",
    "C87_date_bounds_refuted"
   ],
   "note": "REFUTED: the maximum of a decimal is labelled min=, and the bounds of dates, times and datetimes never appear. Proved exactly for integers, floats, texts and sequences; what is shown instead is proved for the others."
  },
  {
   "property": "C88",
   "status": "partial",
   "theorems": [
    "C88_enumeration_documented",
    "C88_items_documented",
    "C88_map_documented",
    "C88_map_undocumented",
    "C88_fields_documented_partial",
    "C88_structures_undocumented",
    "C88_unions_undocumented",
    "C88_structures_documented_refuted"
   ],
   "note": "REFUTED: no structure with fields (AttributeError) and no union (NameError) can be documented. Proved for all other trees whose enumerations and required keys are texts."
  },
  {
   "property": "C89",
   "status": "partial",
   "theorems": [
    "C89_repr_says",
    "C89_repr_class",
    "C89_repr_exists_partial",
    "C89_repr_refuted"
   ],
   "note": "REFUTED: '%r' % default raises TypeError when the default (or title) is a tuple of other than one value, as for a Tuple field with a default (repr_refuted); proved: exactly then (repr_exists_partial), and what repr says when there is one."
  },
  {
   "property": "C90",
   "status": "partial",
   "theorems": [
    "C90_zone_names_differ",
    "C90_zone_named_partial",
    "C90_zone_named_refuted",
    "C90_zone_shown"
   ],
   "note": "REFUTED: negative offsets that are no whole hours and minutes below ten are misnamed (zone_named_refuted); proved: usual name exactly otherwise, names are distinct."
  },
  {
   "property": "C91",
   "status": "proved",
   "theorems": [
    "C91_equality_exact",
    "C91_enumeration_by_equality",
    "C91_constant_by_equality",
    "C91_unique_by_equality"
   ],
   "note": ""
  },
  {
   "property": "C92",
   "status": "partial",
   "theorems": [
    "C92_errors_field_exact",
    "C92_serialized_errors_fit",
    "C92_built_entries_fit",
    "C92_errors_unchanged_refuted"
   ],
   "note": "REFUTED: the message of an error loses blanks around it, which the name of the field may put there. Proved: the field accepts exactly null and pairs of null or a list of (null or dicts of texts under texts) and anything, and strips the texts; errors whose texts have no blanks around them come back unchanged, and only messages may have such."
  },
  {
   "property": "C93",
   "status": "partial",
   "theorems": [
    "C93_recursion_ends_partial",
    "C93_recursion_ends_refuted",
    "C93_surrogate_recursion_refuted"
   ],
   "note": "REFUTED in general: a Union whose alternative stands for itself, a recursive default, or a surrogate for default in the schema of its own class recurses forever (C93_recursion_ends_refuted, C93_surrogate_recursion_refuted). Proved for all schemas without such Unions and defaults and without preprocessors on containers; surrogates included, if their schemas are no Unions or Surrogates themselves."
  },
  {
   "property": "C94",
   "status": "partial",
   "theorems": [
    "C94_options_accepted",
    "C94_documentation_accepted_partial",
    "C94_documentation_accepted_refuted"
   ],
   "note": "REFUTED: documentation of a field with notes is refused, since the directive has no option notes; everything else the generator writes is accepted"
  },
  {
   "property": "C95",
   "status": "partial",
   "theorems": [
    "C95_signature_words",
    "C95_directive_block",
    "C95_directive_shows_partial",
    "C95_directive_shows_refuted",
    "C95_example_unused",
    "C95_structure_shows"
   ],
   "note": "REFUTED: the option example is accepted and never shown; every other option, the flags, the name and the content are shown, exactly"
  },
  {
   "property": "C96",
   "status": "proved",
   "theorems": [
    "C96_decimal_to_float",
    "C96_float_from_integer",
    "C96_float_from_decimal",
    "C96_float_from_text"
   ],
   "note": ""
  },
  {
   "property": "C97",
   "status": "partial",
   "theorems": [
    "C97_element_text_exact",
    "C97_instance_text_exact",
    "C97_surrogate_text_partial",
    "C97_surrogate_text_refuted"
   ],
   "note": "REFUTED for surrogates: a class has no attribute 'surrogate' under Python 3 unless it defines one, and repr is then an AttributeError. Proved exactly: the text of every element, of elements made from structures, and of every surrogate whose class has the attribute."
  },
  {
   "property": "C98",
   "status": "partial",
   "theorems": [
    "C98_get_finds_child",
    "C98_get_default",
    "C98_get_refuses",
    "C98_get_polymorphic_refuted",
    "C98_get_variant"
   ],
   "note": "REFUTED for polymorphic Structures: their get gives the dict of fields of a variant, no child field (get_polymorphic_refuted, get_variant). Proved for every other field. Slices and objects with __index__ as keys of a Tuple are not modelled."
  },
  {
   "property": "C99",
   "status": "partial",
   "theorems": [
    "C99_define_exact",
    "C99_define_everywhere_partial",
    "C99_define_again_refuted"
   ],
   "note": "REFUTED for a placeholder that is defined again (define_again_refuted): fields constructed between the two definitions keep the first. What every container holds is proved exactly for all sequences of constructions and definitions (define_exact), and for placeholders defined once the claim itself (define_everywhere_partial)."
  }
 ]
}