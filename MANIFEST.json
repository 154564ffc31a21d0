{
 "claims": [
  {
   "property": "C01",
   "status": "proved",
   "theorems": [
    "C01_history_is_set"
   ],
   "note": ""
  },
  {
   "property": "C02",
   "status": "proved",
   "theorems": [
    "C02_history_ranges_ok"
   ],
   "note": ""
  },
  {
   "property": "C03",
   "status": "proved",
   "theorems": [
    "C03_test_agrees_with_linear_scan"
   ],
   "note": ""
  },
  {
   "property": "C04",
   "status": "partial",
   "theorems": [
    "C04_equal_classes_same_set_partial",
    "C04_same_set_equal_if_no_touch_partial",
    "C04_same_set_equal_refuted"
   ],
   "note": "The converse is false of the code (refuted): adjacent ranges are not always merged."
  },
  {
   "property": "C05",
   "status": "proved",
   "theorems": [
    "C05_double_negation"
   ],
   "note": ""
  },
  {
   "property": "C06",
   "status": "proved",
   "theorems": [
    "C06_unescape_escape"
   ],
   "note": ""
  },
  {
   "property": "C07",
   "status": "proved",
   "theorems": [
    "C07_canonicalize"
   ],
   "note": ""
  },
  {
   "property": "C08",
   "status": "proved",
   "theorems": [
    "C08_split_join_abs",
    "C08_split_join_rel",
    "C08_join_split"
   ],
   "note": "Absolute paths are those starting with '/'."
  },
  {
   "property": "C09",
   "status": "proved",
   "theorems": [
    "C09_normalize"
   ],
   "note": ""
  },
  {
   "property": "C10",
   "status": "proved",
   "theorems": [
    "C10_recompose"
   ],
   "note": ""
  },
  {
   "property": "C11",
   "status": "partial",
   "theorems": [
    "C11_resolve_partial",
    "C11_same_document",
    "C11_absolute",
    "C11_resolve_refuted"
   ],
   "note": "Proved for bases with an authority and an absolute path. A base without a path, and dot segments in absolute-path references, are counterexamples (refuted)."
  },
  {
   "property": "C12",
   "status": "partial",
   "theorems": [
    "C12_relative_resolve_partial",
    "C12_relative_resolve_refuted"
   ],
   "note": "Proved when the path is not a prefix of the base path and has no dot segments, empty inner segments or colons; refuted otherwise."
  },
  {
   "property": "C13",
   "status": "partial",
   "theorems": [
    "C13_split_server_partial",
    "C13_port_digits",
    "C13_split_server_refuted"
   ],
   "note": "Splitting a composed server gives its parts; authorities such as u@h:12xx lose text (refuted)."
  },
  {
   "property": "C14",
   "status": "partial",
   "theorems": [
    "C14_absolute_day",
    "C14_every_day_number",
    "C14_out_of_range_partial",
    "C14_out_of_range_refuted"
   ],
   "note": "The two-way correspondence is fully proved for days 1..3652059 (years 1..9999). Absolute day 0 is not rejected but gives 0001-01-01 (refuted)."
  },
  {
   "property": "C15",
   "status": "proved",
   "theorems": [
    "C15_next_day"
   ],
   "note": ""
  },
  {
   "property": "C16",
   "status": "partial",
   "theorems": [
    "C16_ordinal_round_trip",
    "C16_out_of_range_partial",
    "C16_out_of_range_refuted"
   ],
   "note": "Round trip fully proved; ordinal day 0 is accepted and gives a date with year precision (refuted)."
  },
  {
   "property": "C17",
   "status": "proved",
   "theorems": [
    "C17_week_round_trip",
    "C17_week_dates_accepted",
    "C17_fourth_of_january"
   ],
   "note": ""
  },
  {
   "property": "C18",
   "status": "proved",
   "theorems": [
    "C18_day_of_week"
   ],
   "note": ""
  },
  {
   "property": "C19",
   "status": "proved",
   "theorems": [
    "C19_date_cmp",
    "C19_different_precision"
   ],
   "note": ""
  },
  {
   "property": "C20",
   "status": "proved",
   "theorems": [
    "C20_date_strings",
    "C20_no_format"
   ],
   "note": "All precisions and the three date forms, untruncated formats."
  },
  {
   "property": "C21",
   "status": "proved",
   "theorems": [
    "C21_julian_round_trip",
    "C21_from_julian",
    "C21_before_range_refuted"
   ],
   "note": "Within the supported range; the refuted theorem shows what happens just before it."
  },
  {
   "property": "C22",
   "status": "partial",
   "theorems": [
    "C22_offset_exact",
    "C22_offset_total_partial",
    "C22_offset_total_refuted"
   ],
   "note": "The result is exact whenever Offset returns; for 24:00:00 it raises DateTimeError (refuted)."
  },
  {
   "property": "C23",
   "status": "partial",
   "theorems": [
    "C23_shift_zone_partial",
    "C23_shift_zone_total",
    "C23_shift_zone_refuted"
   ],
   "note": "Fails when the new local time is before 0001-01-01 (refuted)."
  },
  {
   "property": "C24",
   "status": "partial",
   "theorems": [
    "C24_timepoint_cmp_partial",
    "C24_order_partial",
    "C24_timepoint_cmp_refuted",
    "C24_far_zones_refuted"
   ],
   "note": "24:00:00 and zones more than 24 hours apart are counterexamples."
  },
  {
   "property": "C25",
   "status": "proved",
   "theorems": [
    "C25_unix_time"
   ],
   "note": "FromUnixTime returns a time without zone; the theorem states its local clock reading."
  },
  {
   "property": "C26",
   "status": "proved",
   "theorems": [
    "C26_xml_string"
   ],
   "note": ""
  },
  {
   "property": "C27",
   "status": "proved",
   "theorems": [
    "C27_comment",
    "C27_bare_comment_refuted"
   ],
   "note": "The refuted theorem is about a framing the tool does not use."
  },
  {
   "property": "C28",
   "status": "proved",
   "theorems": [
    "C28_path_segment"
   ],
   "note": ""
  },
  {
   "property": "C29",
   "status": "proved",
   "theorems": [
    "C29_resource_ids",
    "C29_unique_id",
    "C29_add_resource"
   ],
   "note": ""
  },
  {
   "property": "C30",
   "status": "proved",
   "theorems": [
    "C30_file_name",
    "C30_file_names_distinct",
    "C30_first_name"
   ],
   "note": ""
  },
  {
   "property": "C31",
   "status": "partial",
   "theorems": [
    "C31_fix_identifier_partial",
    "C31_resource_names_partial",
    "C31_fix_identifier_refuted",
    "C31_no_identifier_refuted"
   ],
   "note": "Proved for non-empty strings. The empty string stays empty (refuted, with a history in which a resource gets the empty identifier)."
  },
  {
   "property": "C32",
   "status": "partial",
   "theorems": [
    "C32_resolve_partial",
    "C32_resolve_refuted"
   ],
   "note": "Proved for URIs without empty inner segments whose segments do not decode to '..' or to something with '/'; each of these leads outside (refuted)."
  },
  {
   "property": "C33",
   "status": "proved",
   "theorems": [
    "C33_pieces",
    "C33_untreated",
    "C33_clean",
    "C33_idempotent"
   ],
   "note": ""
  },
  {
   "property": "C34",
   "status": "proved",
   "theorems": [
    "C34_balanced",
    "C34_group_restores",
    "C34_inherit_refuted"
   ],
   "note": "The refuted theorem goes beyond the property: formatting is not inherited by inner groups."
  },
  {
   "property": "C35",
   "status": "proved",
   "theorems": [
    "C35_decode_integer",
    "C35_other_text",
    "C35_round_trip"
   ],
   "note": ""
  },
  {
   "property": "C36",
   "status": "proved",
   "theorems": [
    "C36_decode_boolean",
    "C36_other_text",
    "C36_round_trip"
   ],
   "note": ""
  },
  {
   "property": "C37",
   "status": "partial",
   "theorems": [
    "C37_replace",
    "C37_idempotent",
    "C37_collapsed_shape",
    "C37_words_exist_uniquely",
    "C37_same_words_partial",
    "C37_leading_space_refuted"
   ],
   "note": "Leading white space makes collapse cut the first word in two (refuted)."
  },
  {
   "property": "C38",
   "status": "proved",
   "theorems": [
    "C38_decode",
    "C38_unknown",
    "C38_round_trip",
    "C38_other_values",
    "C38_aliases_keep_encoding",
    "C38_lower_aliases",
    "C38_value_lists"
   ],
   "note": ""
  },
  {
   "property": "C39",
   "status": "proved",
   "theorems": [
    "C39_round_digits"
   ],
   "note": ""
  },
  {
   "property": "C40",
   "status": "proved",
   "theorems": [
    "C40_and",
    "C40_or",
    "C40_not",
    "C40_operands"
   ],
   "note": ""
  },
  {
   "property": "C41",
   "status": "proved",
   "theorems": [
    "C41_anyn"
   ],
   "note": "For literal min and max; references to template variables always raise AttributeError."
  },
  {
   "property": "C42",
   "status": "partial",
   "theorems": [
    "C42_multiple",
    "C42_ordered",
    "C42_delete",
    "C42_delete_null",
    "C42_member",
    "C42_contains_partial",
    "C42_contains_refuted",
    "C42_size",
    "C42_index"
   ],
   "note": "contains tests that the first operand is contained in the second, the converse of its documentation (refuted)."
  },
  {
   "property": "C43",
   "status": "partial",
   "theorems": [
    "C43_type_sound_partial",
    "C43_refuted"
   ],
   "note": "Proved for expressions whose integer literals fit 32 bits; baseValue does not check (refuted)."
  },
  {
   "property": "C44",
   "status": "partial",
   "theorems": [
    "C44_reads_partial"
   ],
   "note": "The result depends only on the mentioned variables. That evaluation leaves the session unchanged holds by construction of the model and is not counted."
  },
  {
   "property": "C45",
   "status": "partial",
   "theorems": [
    "C45_divide_partial",
    "C45_zero",
    "C45_refuted"
   ],
   "note": "-2147483648 divided by -1 raises ValueError (refuted)."
  },
  {
   "property": "C46",
   "status": "proved",
   "theorems": [
    "C46_map",
    "C46_bounds",
    "C46_order_irrelevant",
    "C46_null",
    "C46_area",
    "C46_area_null"
   ],
   "note": ""
  },
  {
   "property": "C47",
   "status": "proved",
   "theorems": [
    "C47_interpolation",
    "C47_match",
    "C47_null",
    "C47_first_refuted"
   ],
   "note": "Of several entries of a match table with the same source value the last counts, not the first as documented."
  },
  {
   "property": "C48",
   "status": "partial",
   "theorems": [
    "C48_partial",
    "C48_refuted"
   ],
   "note": "Proved for all histories of items whose variables have distinct names. A declared outcome may have the name of a built-in variable and then changes its type (refuted)."
  },
  {
   "property": "C49",
   "status": "partial",
   "theorems": [
    "C49_partial",
    "C49_refuted"
   ],
   "note": "Proved when variable names are distinct. An outcome named R.DEFAULT is the default of the response R (refuted)."
  },
  {
   "property": "C50",
   "status": "proved",
   "theorems": [
    "C50_response",
    "C50_template",
    "C50_exit"
   ],
   "note": "Equivalence with a relational semantics of rules, in QtiProcSpec.v."
  },
  {
   "property": "C51",
   "status": "partial",
   "theorems": [
    "C51_partial",
    "C51_refuted"
   ],
   "note": "Proved when variable names are distinct. setCorrectResponse for R writes an outcome named R.CORRECT (refuted)."
  },
  {
   "property": "C52",
   "status": "partial",
   "theorems": [
    "C52_attempts_partial",
    "C52_outcomes_partial",
    "C52_refuted"
   ],
   "note": "Proved when variable names are distinct, for the declared outcomes. completionStatus is not reset by a submission (refuted)."
  },
  {
   "property": "C53",
   "status": "partial",
   "theorems": [
    "C53_rejected",
    "C53_no_action",
    "C53_accepted",
    "C53_once_partial",
    "C53_same_time_refuted"
   ],
   "note": "Rejection and renewal are proved for all histories; no key is accepted twice if the events have different times. Two events at the same microsecond get the same key, which is then accepted again (refuted)."
  },
  {
   "property": "C54",
   "status": "partial",
   "theorems": [
    "C54_items",
    "C54_items_selectable",
    "C54_form_partial",
    "C54_test_form_partial",
    "C54_hole_refuted",
    "C54_shuffled_section_refuted"
   ],
   "note": "Exact for sections of items; for nested sections every form built is a valid one if it is built at all: a shuffled section raises AttributeError, and an invisible section that selects nothing leaves None in the form (refuted)."
  },
  {
   "property": "C55",
   "status": "partial",
   "theorems": [
    "C55_nested_partial",
    "C55_find",
    "C54_hole_refuted"
   ],
   "note": "Proved when no invisible section selects nothing (see C54)."
  },
  {
   "property": "C56",
   "status": "proved",
   "theorems": [
    "C56_forward",
    "C56_submit",
    "C56_terminates"
   ],
   "note": ""
  },
  {
   "property": "C57",
   "status": "partial",
   "theorems": [
    "C57_event",
    "C57_item",
    "C57_group",
    "C57_test_partial",
    "C57_clock",
    "C57_begin_again_refuted"
   ],
   "note": "Exact for all histories of save and submit events; BeginSession in the course of a test discards the time since the last event and the duration of the test (refuted)."
  },
  {
   "property": "C58",
   "status": "partial",
   "theorems": [
    "C58_identifier_valid",
    "C58_identifier_default",
    "C58_identifier_unchanged_partial",
    "C58_identifier_unchanged_refuted"
   ],
   "note": "The result is always an NCName. NCNames with characters above U+FFFF are changed (refuted); all others are left alone."
  },
  {
   "property": "C59",
   "status": "partial",
   "theorems": [
    "C59_rect",
    "C59_circle",
    "C59_ellipse_partial",
    "C59_ellipse_refuted",
    "C59_poly_even_odd",
    "C59_poly_same_polygon",
    "C59_poly_cut",
    "C59_poly_in_box",
    "C59_poly_rect",
    "C59_poly_moves",
    "C59_poly_errors"
   ],
   "note": "Rectangles, circles and polygons are exact (polygons by the even-odd rule). An ellipse with a zero radius accepts a whole line (refuted), others are exact. The model compares intersections exactly where the code uses floats."
  },
  {
   "property": "C60",
   "status": "proved",
   "theorems": [
    "C60_inverse",
    "C60_once"
   ],
   "note": ""
  },
  {
   "property": "C61",
   "status": "proved",
   "theorems": [
    "C61_delete_links",
    "C61_stream",
    "C61_stream_written"
   ],
   "note": ""
  },
  {
   "property": "C62",
   "status": "partial",
   "theorems": [
    "C62_store_map_partial",
    "C62_store_map_refuted",
    "C62_next_key",
    "C62_next_key_total",
    "C62_next_key_refuted",
    "C62_reuse_refuted",
    "C62_insert_partial",
    "C62_insert_refuted"
   ],
   "note": "Proved for entities added with all properties selected; with an unselected property the values are shifted (refuted). Generated keys are new but the same key is generated until it is used and keys of deleted entities come back. Insertion through a filtered collection replaces an entity hidden by the filter (refuted)."
  },
  {
   "property": "C63",
   "status": "partial",
   "theorems": [
    "C63_at_most_one_partial",
    "C63_replace_refuted",
    "C63_bind_refuted"
   ],
   "note": "Proved for schemas in which 0..1 is only opposite *, and without Replace of an entity linked elsewhere; Replace and bindings otherwise give an entity two links (refuted)."
  },
  {
   "property": "C64",
   "status": "proved",
   "theorems": [
    "C64_version_order",
    "C64_version_round_trip",
    "C64_explode",
    "C64_product_preorder",
    "C64_product_equal",
    "C64_product_numbers",
    "C64_product_further",
    "C64_product_modifier",
    "C64_product_round_trip"
   ],
   "note": "The order on versions of products is also characterised: number by number, a further component later, a modifier earlier."
  },
  {
   "property": "C65",
   "status": "proved",
   "theorems": [
    "C65_decode",
    "C65_grammar",
    "C65_decode_any",
    "C65_unforced",
    "C65_parse",
    "C65_word",
    "C65_unterminated_refuted"
   ],
   "note": "As stated, for all strings. In addition: a string without its closing quote is accepted and loses a character (refuted side claim)."
  },
  {
   "property": "C66",
   "status": "partial",
   "theorems": [
    "C66_add_self_partial",
    "C66_sub_self_refuted"
   ],
   "note": "c.SubtractClass(c) leaves characters behind (refuted)."
  },
  {
   "property": "C67",
   "status": "proved",
   "theorems": [
    "C67_time_strings"
   ],
   "note": ""
  },
  {
   "property": "C68",
   "status": "proved",
   "theorems": [
    "C68_timepoint_strings"
   ],
   "note": ""
  },
  {
   "property": "C69",
   "status": "partial",
   "theorems": [
    "C69_duration_strings_partial",
    "C69_duration_strings_refuted"
   ],
   "note": "Durations in weeks have no string: GetString returns None (refuted)."
  },
  {
   "property": "C70",
   "status": "partial",
   "theorems": [
    "C70_attribute_value_partial",
    "C70_attribute_value_refuted"
   ],
   "note": "Double quotes are not escaped (refuted)."
  },
  {
   "property": "C71",
   "status": "partial",
   "theorems": [
    "C71_relative_url_partial",
    "C71_relative_url_refuted"
   ],
   "note": "IndexError for ':a' (refuted)."
  },
  {
   "property": "C72",
   "status": "partial",
   "theorems": [
    "C72_decode_partial",
    "C72_decode_refuted"
   ],
   "note": "Malformed escapes lose characters (refuted)."
  },
  {
   "property": "C73",
   "status": "partial",
   "theorems": [
    "C73_tokenizer_errors_partial",
    "C73_tokenizer_errors_refuted"
   ],
   "note": "Numeric references can raise ValueError (refuted)."
  },
  {
   "property": "C74",
   "status": "proved",
   "theorems": [
    "C74_tokenizer_content",
    "C74_entities",
    "C74_repeated_attributes"
   ],
   "note": ""
  },
  {
   "property": "C75",
   "status": "partial",
   "theorems": [
    "C75_manifest_name_partial",
    "C75_manifest_name_refuted"
   ],
   "note": "The name is given when asked for (refuted)."
  },
  {
   "property": "C76",
   "status": "partial",
   "theorems": [
    "C76_terminates_partial",
    "C76_terminates_refuted"
   ],
   "note": "Negative numbers in the control word uc make it loop for ever (refuted)."
  },
  {
   "property": "C77",
   "status": "partial",
   "theorems": [
    "C77_text_partial",
    "C77_text_refuted"
   ],
   "note": "Escaped backslashes and braces disappear (refuted)."
  },
  {
   "property": "C78",
   "status": "proved",
   "theorems": [
    "C78_decode_decimal",
    "C78_other_text"
   ],
   "note": "The value is the exact decimal number, before conversion to floating point."
  },
  {
   "property": "C79",
   "status": "partial",
   "theorems": [
    "C79_canonical_partial",
    "C79_fixed_digits_partial",
    "C79_negative_zero_refuted"
   ],
   "note": "Proved from the scaled integer on; the floating point scaling is not modelled. Negative values that round to zero give -0.0 (refuted)."
  },
  {
   "property": "C80",
   "status": "partial",
   "theorems": [
    "C80_aliases_partial",
    "C80_aliases_refuted"
   ],
   "note": "An alias that is already a name redefines it (refuted)."
  },
  {
   "property": "C81",
   "status": "partial",
   "theorems": [
    "C81_value_dict_partial",
    "C81_value_dict_refuted",
    "C81_no_words_refuted"
   ],
   "note": "Only the last name is returned, and NameError is raised for blank text (refuted)."
  },
  {
   "property": "C82",
   "status": "partial",
   "theorems": [
    "C82_exact",
    "C82_absolute",
    "C82_one_tolerance",
    "C82_relative_partial",
    "C82_relative_refuted"
   ],
   "note": "The relative interval is empty when the first number is negative (refuted)."
  },
  {
   "property": "C83",
   "status": "proved",
   "theorems": [
    "C83_integers",
    "C83_floats",
    "C83_subtract",
    "C83_divide",
    "C83_null",
    "C83_null2"
   ],
   "note": "Numbers are exact: no rounding of floats."
  },
  {
   "property": "C84",
   "status": "proved",
   "theorems": [
    "C84_round",
    "C84_truncate",
    "C84_integer_to_float"
   ],
   "note": "Numbers are exact: no rounding of floats."
  },
  {
   "property": "C85",
   "status": "proved",
   "theorems": [
    "C85_compare",
    "C85_durations"
   ],
   "note": ""
  },
  {
   "property": "C86",
   "status": "proved",
   "theorems": [
    "C86_match",
    "C86_null"
   ],
   "note": ""
  },
  {
   "property": "C87",
   "status": "partial",
   "theorems": [
    "C87_copy_partial",
    "C87_copy_record",
    "C87_copy_refuted"
   ],
   "note": "A copy of a multiple container holds each member once (refuted)."
  },
  {
   "property": "C88",
   "status": "partial",
   "theorems": [
    "C88_outcome_partial",
    "C88_item_partial",
    "C88_type",
    "C88_refuted"
   ],
   "note": "Each member of a multiple container is stored once only (refuted)."
  },
  {
   "property": "C89",
   "status": "partial",
   "theorems": [
    "C89_untouched",
    "C89_single_partial",
    "C89_multiple_partial",
    "C89_refuted"
   ],
   "note": "Proved for single and multiple cardinality and identifiers without a full stop. Ordered responses cannot be submitted, duplicates are lost (refuted)."
  },
  {
   "property": "C90",
   "status": "proved",
   "theorems": [
    "C90_frame"
   ],
   "note": "For items whose variables have distinct names."
  },
  {
   "property": "C91",
   "status": "proved",
   "theorems": [
    "C91_cursor_accepts_the_content_model",
    "C91_mixed_content"
   ],
   "note": "Equivalence with the language of the content model as a regular expression, for models whose particles are distinct objects with non-empty names."
  },
  {
   "property": "C92",
   "status": "proved",
   "theorems": [
    "C92_deterministic_iff_unambiguous",
    "C92_mixed_deterministic_iff_no_duplicates",
    "C92_deterministic_cursor_has_one_particle"
   ],
   "note": "Equivalence with one-unambiguity of the marked language."
  },
  {
   "property": "C93",
   "status": "partial",
   "theorems": [
    "C93_rejected_name_leaves_cursor",
    "C93_expected_names_are_the_accepted_ones_partial",
    "C93_one_error_iff_invalid_partial",
    "C93_child_of_empty_element_refuted"
   ],
   "note": "Proved for element and mixed content. A child of an element declared EMPTY raises AttributeError instead of being reported (refuted)."
  },
  {
   "property": "C94",
   "status": "proved",
   "theorems": [
    "C94_text_round_trip",
    "C94_text_safe",
    "C94_text7_round_trip",
    "C94_text7_ascii",
    "C94_injective"
   ],
   "note": ""
  },
  {
   "property": "C95",
   "status": "partial",
   "theorems": [
    "C95_attribute_round_trip_partial",
    "C95_attribute_round_trip_refuted"
   ],
   "note": "Proved for texts without tab and new line; those are written literally and read as spaces (refuted)."
  },
  {
   "property": "C96",
   "status": "partial",
   "theorems": [
    "C96_cdata_partial",
    "C96_cdata_refuted"
   ],
   "note": "The delimiter written is '<!CDATA[[' instead of '<![CDATA[', so no output is well formed (refuted); with that delimiter the text would read back."
  },
  {
   "property": "C97",
   "status": "partial",
   "theorems": [
    "C97_char_class",
    "C97_discouraged",
    "C97_name_class_partial",
    "C97_name_partial",
    "C97_name_refuted"
   ],
   "note": "Names with characters above U+FFFF are rejected (refuted); exact otherwise."
  },
  {
   "property": "C98",
   "status": "proved",
   "theorems": [
    "C98_normalize",
    "C98_collapse",
    "C98_strip",
    "C98_words"
   ],
   "note": ""
  },
  {
   "property": "C99",
   "status": "partial",
   "theorems": [
    "C99_length",
    "C99_length_any",
    "C99_coords_partial",
    "C99_coords_refuted"
   ],
   "note": "Proved for two or more coordinates. A single coordinate is dropped (refuted)."
  },
  {
   "property": "C100",
   "status": "partial",
   "theorems": [
    "C100_bounds_partial",
    "C100_bounds_refuted",
    "C100_bounds_rect_refuted",
    "C100_offset_partial",
    "C100_offset_refuted"
   ],
   "note": "Proved for circles, ellipses, default and rectangles with ordered corners. For polygons both functions loop for ever (refuted)."
  },
  {
   "property": "C101",
   "status": "partial",
   "theorems": [
    "C101_numbers_partial",
    "C101_numbers_refuted",
    "C101_rectangle",
    "C101_rectangle_refuted",
    "C101_ellipse_refuted"
   ],
   "note": "Proved for texts that start with a number. Leading separators split the first number; rectangles lose a row and a column; short ellipses raise NameError (refuted)."
  },
  {
   "property": "C102",
   "status": "partial",
   "theorems": [
    "C102_cascade_partial",
    "C102_failed",
    "C102_terminates",
    "C102_self_refuted",
    "C102_diamond_refuted"
   ],
   "note": "Exact for successful deletions when no association joins an entity set to itself; otherwise the wrong side is deleted (refuted). A dependent reached twice makes the deletion fail half way (refuted)."
  },
  {
   "property": "C103",
   "status": "partial",
   "theorems": [
    "C103_no_dangling_partial",
    "C103_stale_refuted"
   ],
   "note": "Proved when the entity objects given are of existing entities; stale ones give dangling links (refuted)."
  },
  {
   "property": "C104",
   "status": "partial",
   "theorems": [
    "C104_at_least_one_partial",
    "C104_failed_insert_refuted"
   ],
   "note": "Proved for histories of successful operations, associations between different sets; a failed insertion leaves the entity without its link (refuted)."
  },
  {
   "property": "C105",
   "status": "partial",
   "theorems": [
    "C105_filter_partial",
    "C105_navigation_partial",
    "C105_navigation_total",
    "C105_lookup_refuted"
   ],
   "note": "Entity collections are exact; the lookup of a navigation collection ignores the filter (refuted), iteration and length do not."
  },
  {
   "property": "C106",
   "status": "partial",
   "theorems": [
    "C106_no_rule",
    "C106_exit_test",
    "C106_exit_test_part",
    "C106_exit_section_partial",
    "C106_go_to",
    "C106_go_nowhere",
    "C106_exit_section_refuted"
   ],
   "note": "EXIT_SECTION is right only if no section follows inside the section (refuted otherwise)."
  },
  {
   "property": "C107",
   "status": "partial",
   "theorems": [
    "C107_presented",
    "C107_next_partial",
    "C107_section_refuted",
    "C107_nonlinear_refuted"
   ],
   "note": "An item's own pre-conditions are obeyed; those of a section or test part do not affect its contents (refuted). No item of a non-linear part is ever presented (refuted)."
  },
  {
   "property": "C108",
   "status": "partial",
   "theorems": [
    "C108_media_partial",
    "C108_range_partial",
    "C108_encoding_partial",
    "C108_empty_value_refuted"
   ],
   "note": "All parameters with non-empty values. A parameter with an empty value is written without quotes and refused when read (refuted)."
  },
  {
   "property": "C109",
   "status": "proved",
   "theorems": [
    "C109_entity_tag",
    "C109_language_tag",
    "C109_partial_match",
    "C109_language_order"
   ],
   "note": ""
  },
  {
   "property": "C110",
   "status": "partial",
   "theorems": [
    "C110_str",
    "C110_rfc1123",
    "C110_rfc850_partial",
    "C110_asctime",
    "C110_round_trip",
    "C110_wrong_day",
    "C110_rfc850_refuted"
   ],
   "note": "The two-digit years of the RFC 850 form are read as 1990 to 2089 only (refuted for others)."
  },
  {
   "property": "C111",
   "status": "partial",
   "theorems": [
    "C111_select",
    "C111_order",
    "C111_match",
    "C111_preorder",
    "C111_name_case_refuted",
    "C111_star_subtype_refuted"
   ],
   "note": "Proved for the ranges of the grammar. Of equal ranges whose parameter names differ in case not the best is used, and a range */html matches everything (refuted)."
  },
  {
   "property": "C112",
   "status": "partial",
   "theorems": [
    "C112_token",
    "C112_charset",
    "C112_encoding",
    "C112_order",
    "C112_language",
    "C112_language_order_refuted",
    "C112_language_none_refuted"
   ],
   "note": "Of equal language ranges the first counts, and AcceptLanguageList.SelectToken gives the string None if nothing is acceptable (refuted)."
  },
  {
   "property": "C113",
   "status": "proved",
   "theorems": [
    "C113_quality",
    "C113_accept_item",
    "C113_accept",
    "C113_tokens",
    "C113_languages",
    "C113_token"
   ],
   "note": "Qualities are multiples of 1/1000."
  },
  {
   "property": "C114",
   "status": "proved",
   "theorems": [
    "C114_round_trip",
    "C114_valid",
    "C114_length"
   ],
   "note": ""
  },
  {
   "property": "C115",
   "status": "proved",
   "theorems": [
    "C115_allow",
    "C115_allowed",
    "C115_allow_equal",
    "C115_ranges",
    "C115_none",
    "C115_ranges_equal"
   ],
   "note": ""
  },
  {
   "property": "C116",
   "status": "partial",
   "theorems": [
    "C116_value",
    "C116_contains",
    "C116_str_partial",
    "C116_str_refuted",
    "C116_read_refuted"
   ],
   "note": "A directive given twice is written with the last value twice; FromString always fails (refuted)."
  },
  {
   "property": "C117",
   "status": "partial",
   "theorems": [
    "C117_values_partial",
    "C117_version_refuted",
    "C117_backslash_refuted",
    "C117_comment_refuted",
    "C117_control_refuted"
   ],
   "note": "Proved for strings without control characters, double quotes and opening parentheses, and for nine kinds of value; Accept headers are not covered. Otherwise NameError, TypeError, ValueError or no termination (refuted)."
  },
  {
   "property": "C118",
   "status": "partial",
   "theorems": [
    "C118_meaning_partial",
    "C118_total_partial",
    "C118_ellipse_logged",
    "C118_not_refuted",
    "C118_index_refuted"
   ],
   "note": "Proved for conditions whose negated tests are of answered responses and that log no change of meaning. A negated test of an unanswered response is NULL and so false; a test of one element of an ordered response raises an exception (refuted)."
  },
  {
   "property": "C119",
   "status": "proved",
   "theorems": [
    "C119_sequence",
    "C119_total"
   ],
   "note": ""
  },
  {
   "property": "C120",
   "status": "partial",
   "theorems": [
    "C120_action_partial",
    "C120_total_partial",
    "C120_divide_refuted",
    "C120_bounds_refuted"
   ],
   "note": "Exact for the values; dividing an integer variable raises an exception and bounds are ignored (refuted)."
  },
  {
   "property": "C121",
   "status": "partial",
   "theorems": [
    "C121_shown_partial",
    "C121_total_partial",
    "C121_repair_refuted"
   ],
   "note": "Proved for identifiers that are valid; others are repaired in the feedback but not in the rule (refuted)."
  },
  {
   "property": "C122",
   "status": "partial",
   "theorems": [
    "C122_never_dropped_partial",
    "C122_exception_refuted"
   ],
   "note": "Never dropped; the exception is NameError because the class is not imported (refuted)."
  },
  {
   "property": "C123",
   "status": "partial",
   "theorems": [
    "C123_declared_partial",
    "C123_total",
    "C123_clash",
    "C123_boolean_refuted"
   ],
   "note": "Boolean variables become identifiers: the codes of Boolean and Enumerated coincide (refuted)."
  },
  {
   "property": "C124",
   "status": "partial",
   "theorems": [
    "C124_one",
    "C124_several_partial",
    "C124_union_partial",
    "C124_ordered_refuted",
    "C124_clash_refuted",
    "C124_single_refuted"
   ],
   "note": "Proved for one interaction and for multiple cardinality. The rule for ordered responses always fails, a name in use makes the migration run for ever, and a single response with several interactions is not declared (refuted)."
  },
  {
   "property": "C125",
   "status": "partial",
   "theorems": [
    "C125_processing_partial",
    "C125_total_partial"
   ],
   "note": "Correct and total for programs without split responses, whose negated tests are of answered responses and in which nothing continues before other. The exceptions are those of C118, C120 and C121."
  },
  {
   "property": "C126",
   "status": "proved",
   "theorems": [
    "C126_string_match",
    "C126_substring",
    "C126_string_null",
    "C126_pattern",
    "C126_inside",
    "C126_is_null",
    "C126_field"
   ],
   "note": ""
  },
  {
   "property": "C127",
   "status": "proved",
   "theorems": [
    "C127_integer",
    "C127_float",
    "C127_member"
   ],
   "note": "Steps positive, bounds 32-bit integers; floats are exact."
  },
  {
   "property": "C128",
   "status": "partial",
   "theorems": [
    "C128_default",
    "C128_correct",
    "C128_not_response",
    "C128_start",
    "C128_session_partial",
    "C128_session_total",
    "C128_attempt_partial",
    "C128_attempt_total",
    "C128_refuted"
   ],
   "note": "Multiple default values lose repeated members when copied (refuted)."
  },
  {
   "property": "C129",
   "status": "partial",
   "theorems": [
    "C129_item_partial",
    "C129_document",
    "C129_element_partial",
    "C129_expression",
    "C129_quote_refuted",
    "C129_unescaped_refuted",
    "C129_image_refuted",
    "C129_unlimited_refuted",
    "C129_prompt_refuted",
    "C129_inside_refuted"
   ],
   "note": "Proved for items within item_expressible. Quotation marks and unescaped identifiers, long descriptions, lone heights and widths, unlimited choices, the prompt of graphicOrderInteraction, feedback titles and the coordinates of inside are written wrongly or not at all (refuted)."
  },
  {
   "property": "C130",
   "status": "partial",
   "theorems": [
    "C130_inline_partial",
    "C130_text",
    "C130_inline_refuted"
   ],
   "note": "Text alone is written exactly. An inline element is preceded by a line break (refuted)."
  },
  {
   "property": "C131",
   "status": "partial",
   "theorems": [
    "C131_names_partial",
    "C131_split_refuted"
   ],
   "note": "All but the whole of a split response, whose declaration is lost (refuted)."
  },
  {
   "property": "C132",
   "status": "partial",
   "theorems": [
    "C132_converts_partial",
    "C132_identifier_refuted",
    "C132_full_stop_refuted"
   ],
   "note": "Proved with the intended ValidateIdentifier and up to 99 variables; at this commit the function is missing and no item with a response is converted (refuted). Identifiers that differ in . and _ only collide (refuted)."
  },
  {
   "property": "C133",
   "status": "partial",
   "theorems": [
    "C133_closed_partial",
    "C133_split_refuted",
    "C133_feedback_refuted"
   ],
   "note": "Proved without split responses and if earlier resprocessing shows no feedback; refuted otherwise."
  },
  {
   "property": "C134",
   "status": "partial",
   "theorems": [
    "C134_meaning_partial",
    "C134_index",
    "C134_parts",
    "C134_unsupported_refuted",
    "C134_case_refuted"
   ],
   "note": "Proved for the tests in [faithful]; unsupported tests are dropped and case-insensitive comparisons of anything but single strings are case-sensitive (refuted)."
  },
  {
   "property": "C135",
   "status": "partial",
   "theorems": [
    "C135_bounds_partial",
    "C135_zero_refuted",
    "C135_fraction_refuted",
    "C135_string_refuted"
   ],
   "note": "Bounds of 0 are ignored, fractional bounds of integers truncated, bounds of strings raise exceptions (refuted)."
  },
  {
   "property": "C136",
   "status": "proved",
   "theorems": [
    "C136_order",
    "C136_deterministic",
    "C136_pages",
    "C136_whole",
    "C136_top0"
   ],
   "note": "Exceptions of expressions and entities added while a page is being read are not modelled."
  },
  {
   "property": "C137",
   "status": "partial",
   "theorems": [
    "C137_none",
    "C137_next",
    "C137_follow_partial",
    "C137_refuted",
    "C137_top_refuted"
   ],
   "note": "A next link may lead to an empty page, and drops $top so that more than $top entities follow (refuted). Without $top following the links gives what was asked for."
  },
  {
   "property": "C138",
   "status": "proved",
   "theorems": [
    "C138_itervalues"
   ],
   "note": "The collection does not change between the requests."
  },
  {
   "property": "C139",
   "status": "proved",
   "theorems": [
    "C139_pages"
   ],
   "note": "The collection does not change between the requests."
  },
  {
   "property": "C140",
   "status": "partial",
   "theorems": [
    "C140_pages_partial",
    "C140_requests_partial",
    "C140_null_refuted",
    "C140_long_refuted",
    "C140_repeat_refuted",
    "C140_memory_refuted"
   ],
   "note": "Proved for SQL collections whose columns hold no NULL and at most 512 characters. With NULL rows are lost, with longer values the walk raises TypeError or repeats a page, and collections in memory pass entities over after a deletion (refuted)."
  },
  {
   "property": "C141",
   "status": "partial",
   "theorems": [
    "C141_select_partial",
    "C141_refuted"
   ],
   "note": "The filter is given entities whose unselected properties are NULL (refuted); proved if filter and rules look only at selected properties."
  },
  {
   "property": "C142",
   "status": "proved",
   "theorems": [
    "C142_pages",
    "C142_requests",
    "C142_page",
    "C142_tops",
    "C142_offset"
   ],
   "note": "Skip tokens are lists of values; their text is not modelled. C142_page is one page with $top, $skip, a token with or without an offset and TopMax together; C142_tops is a walk in pages of $top; C142_offset is the token after long values."
  },
  {
   "property": "C143",
   "status": "partial",
   "theorems": [
    "C143_reads_partial",
    "C143_unambiguous",
    "C143_brackets_refuted",
    "C143_unary_refuted",
    "C143_names_refuted"
   ],
   "note": "Proved for the grammar of OdExprSpec.v. A unary expression in brackets is refused, a unary operator cannot be applied to another, and properties named like a literal (Time, Guid, X, ...) cannot be used (refuted)."
  },
  {
   "property": "C144",
   "status": "partial",
   "theorems": [
    "C144_error_partial",
    "C144_trailing_partial",
    "C144_brackets_refuted",
    "C144_operands_refuted"
   ],
   "note": "Reading always ends and raises ValueError only; an expression followed by text that is no operator or opening bracket is refused. A missing closing bracket is not noticed and expressions without an operand are accepted (refuted)."
  },
  {
   "property": "C145",
   "status": "partial",
   "theorems": [
    "C145_reads",
    "C145_total",
    "C145_round_partial"
   ],
   "note": "Writing and reading back is proved for rules whose expressions are printable: see C146."
  },
  {
   "property": "C146",
   "status": "partial",
   "theorems": [
    "C146_round_partial",
    "C146_literals",
    "C146_right_refuted",
    "C146_write_refuted",
    "C146_negate_refuted"
   ],
   "note": "Proved for printable expressions and for the literals of Boolean, String, Binary, Int32, Int64 and null. Brackets around the right operand are lost, isof and cast with one argument cannot be written, a negated number comes back as a literal (refuted)."
  },
  {
   "property": "C147",
   "status": "proved",
   "theorems": [
    "C147_promotes",
    "C147_null",
    "C147_mismatch"
   ],
   "note": "SByte is not among the types that are promoted."
  },
  {
   "property": "C148",
   "status": "partial",
   "theorems": [
    "C148_integers_partial",
    "C148_decimals_partial",
    "C148_doubles",
    "C148_negate_integers",
    "C148_negate_decimals_partial",
    "C148_negate_doubles",
    "C148_bytes_refuted",
    "C148_digits_refuted"
   ],
   "note": "Decimals are rounded to 28 digits while the EDM allows 29, and two operands of type Byte, Int16 or SByte are refused (refuted). A result out of range raises ValueError."
  },
  {
   "property": "C149",
   "status": "partial",
   "theorems": [
    "C149_integers_partial",
    "C149_integers_zero",
    "C149_decimals_partial",
    "C149_doubles",
    "C149_mod_decimals_partial",
    "C149_int64_refuted",
    "C149_decimals_refuted"
   ],
   "note": "Integers go through floats: wrong beyond 53 bits. The remainder of Decimals is computed with floats, and 0 div 0 raises InvalidOperation (refuted)."
  },
  {
   "property": "C150",
   "status": "partial",
   "theorems": [
    "C150_numbers_partial",
    "C150_doubles",
    "C150_nan",
    "C150_texts",
    "C150_dates_partial",
    "C150_guids",
    "C150_ne",
    "C150_types_refuted",
    "C150_int64_refuted"
   ],
   "note": "Booleans, times and dates with a zone are refused, as are two Bytes (C148_bytes_refuted); an Int64 and a Double are compared as Doubles (refuted)."
  },
  {
   "property": "C151",
   "status": "partial",
   "theorems": [
    "C151_and_or_partial",
    "C151_not",
    "C151_passes",
    "C151_no_filter",
    "C151_refused",
    "C151_both",
    "C151_or_null_refuted"
   ],
   "note": "true or null is false, and a filter null is refused (refuted)."
  },
  {
   "property": "C152",
   "status": "partial",
   "theorems": [
    "C152_tests",
    "C152_places",
    "C152_changes_partial",
    "C152_substring_partial",
    "C152_negative_refuted"
   ],
   "note": "The maps of characters to lower and upper case are parameters. A negative start of substring counts from the end (refuted); the replacement of the empty text is left out."
  },
  {
   "property": "C153",
   "status": "partial",
   "theorems": [
    "C153_decimals",
    "C153_doubles_partial",
    "C153_round_refuted"
   ],
   "note": "round of a Double takes the even integer of two (refuted)."
  },
  {
   "property": "C154",
   "status": "proved",
   "theorems": [
    "C154_parts"
   ],
   "note": "Seconds are whole numbers."
  },
  {
   "property": "C155",
   "status": "partial",
   "theorems": [
    "C155_arithmetic",
    "C155_relations_partial",
    "C155_equality_partial",
    "C155_methods_partial",
    "C155_texts_refuted",
    "C155_methods_refuted"
   ],
   "note": "NULL is less than every text and equal to the date 0001-01-01, and some methods refuse a NULL without a type or overlook it (refuted)."
  },
  {
   "property": "C156",
   "status": "proved",
   "theorems": [
    "C156_typed",
    "C156_methods"
   ],
   "note": ""
  },
  {
   "property": "C157",
   "status": "partial",
   "theorems": [
    "C157_paths_partial",
    "C157_absent_refuted"
   ],
   "note": "An unknown property of an entity raises KeyError, and members of an absent entity raise EvaluationError (refuted)."
  },
  {
   "property": "C158",
   "status": "proved",
   "theorems": [
    "C158_isof",
    "C158_cast_exact",
    "C158_cast_double",
    "C158_cast_single",
    "C158_cast_same",
    "C158_cast_null",
    "C158_cast_refused",
    "C158_entities"
   ],
   "note": "A Single keeps 53 bits, as the code does. cast of dates and times to their own type is left out."
  },
  {
   "property": "C159",
   "status": "proved",
   "theorems": [
    "C159_where",
    "C159_page"
   ],
   "note": "For the parameters of QMarkParams; the classes for other styles raise TypeError when they are created."
  },
  {
   "property": "C160",
   "status": "partial",
   "theorems": [
    "C160_filter_partial",
    "C160_where_partial",
    "C160_brackets_refuted"
   ],
   "note": "The trees are equal up to the grouping of AND, OR and ||. Brackets are left out on the right of - and / and between operators the database ranks differently (refuted); the side condition clear excludes these."
  },
  {
   "property": "C161",
   "status": "partial",
   "theorems": [
    "C161_rows_partial",
    "C160_brackets_refuted",
    "C161_null_refuted",
    "C161_null_order_refuted",
    "C161_wildcard_refuted",
    "C161_case_refuted",
    "C161_indexof_refuted"
   ],
   "note": "For integers, texts, Booleans and NULL and the expressions of covered; div, trim, dates and other types are left out. NULL, wildcards in texts, capital letters in SQLite and indexof differ (refuted)."
  },
  {
   "property": "C162",
   "status": "partial",
   "theorems": [
    "C162_supported",
    "C162_only",
    "C162_refuted"
   ],
   "note": "Exact for expressions with the right numbers of operands. Filters with not, negate, mod, cast, isof, replace, substring, round, floor and ceiling raise exceptions although they are evaluated in memory (refuted)."
  },
  {
   "property": "C163",
   "status": "partial",
   "theorems": [
    "C163_columns_partial",
    "C163_quoted",
    "C163_refuted"
   ],
   "note": "For names without _ and quotation marks. Address/City and Address_City share a column (refuted)."
  },
  {
   "property": "C164",
   "status": "proved",
   "theorems": [
    "C164_exclusive"
   ],
   "note": "Steps are what threads do while they hold cPoolLock."
  },
  {
   "property": "C165",
   "status": "proved",
   "theorems": [
    "C165_limit"
   ],
   "note": "Until the container is closed."
  },
  {
   "property": "C166",
   "status": "proved",
   "theorems": [
    "C166_own"
   ],
   "note": "Until the container is closed."
  },
  {
   "property": "C167",
   "status": "partial",
   "theorems": [
    "C167_acquire",
    "C167_total",
    "C167_level0_refuted"
   ],
   "note": "Proved while connections can be opened. At level 0 of thread safety a thread that fails to open a connection keeps the lock of the module, and all others wait for ever (refuted)."
  },
  {
   "property": "C168",
   "status": "proved",
   "theorems": [
    "C168_release"
   ],
   "note": "The recovery of a connection of another thread that the code attempts never works: it raises RuntimeError."
  },
  {
   "property": "C169",
   "status": "partial",
   "theorems": [
    "C169_notified_partial",
    "C169_wakes_partial",
    "C169_level0_refuted",
    "C169_open_refuted"
   ],
   "note": "Proved for levels 1 and up while connections can be opened. A notice is lost at level 0 if it reaches a thread whose time is over, and at every level if the notified thread cannot open a connection (refuted)."
  },
  {
   "property": "C170",
   "status": "partial",
   "theorems": [
    "C170_refuses_partial",
    "C170_idle_partial",
    "C170_waiting_refuted",
    "C170_ends_refuted",
    "C170_in_use_refuted",
    "C170_closes_all_refuted"
   ],
   "note": "Idle connections are closed and later requests refused. A waiting thread gets a connection after close, close never ends if a thread died with a connection, at level 0 it closes connections in use, and one that is released while close waits stays open (refuted)."
  },
  {
   "property": "C171",
   "status": "partial",
   "theorems": [
    "C171_atomic",
    "C171_nested",
    "C171_unsupported_refuted"
   ],
   "note": "Where rollback is not supported the original exception is replaced by NameError (refuted)."
  },
  {
   "property": "C172",
   "status": "partial",
   "theorems": [
    "C172_insert_partial",
    "C172_update_partial",
    "C172_delete_partial",
    "C172_replace",
    "C172_insert_stores",
    "C172_update_stores",
    "C172_deletes",
    "C172_insert_refuted",
    "C172_update_refuted",
    "C172_delete_refuted"
   ],
   "note": "What a method that returns has stored is exact for all entities. All or nothing is proved for entities bound as entities, updates without new entities in auxiliary tables and deletes without dependent entities. Reading an entity by its key or the list of dependent ones commits what was done before, and an update does not pass its transaction on (refuted)."
  },
  {
   "property": "C173",
   "status": "partial",
   "theorems": [
    "C173_exists",
    "C173_retry_refuted"
   ],
   "note": "After a failed insert the entity counts as one that exists (refuted)."
  },
  {
   "property": "C174",
   "status": "proved",
   "theorems": [
    "C174_responses"
   ],
   "note": "For responses of the grammar in HttpConnSpec (head_text, framed). Redirects that are followed and 401 are in C181."
  },
  {
   "property": "C175",
   "status": "proved",
   "theorems": [
    "C175_until_close"
   ],
   "note": ""
  },
  {
   "property": "C176",
   "status": "partial",
   "theorems": [
    "C176_cut_off_partial",
    "C176_refuted"
   ],
   "note": "The request is finished once with a beginning of the body or with status 0. No error is reported: a response of 3 bytes cut after 2 is a success with 2 bytes (refuted)."
  },
  {
   "property": "C177",
   "status": "partial",
   "theorems": [
    "C177_in_order_partial",
    "C177_refuted"
   ],
   "note": "For pieces that hold bytes of one response only. The beginning of a second response in the same piece is not looked at until more bytes come, and is lost if the connection closes (refuted)."
  },
  {
   "property": "C178",
   "status": "partial",
   "theorems": [
    "C178_request_partial",
    "C178_refuted"
   ],
   "note": "For new requests that are sendable: not a chunked empty string, lengths that match, no Expect. A chunked empty string is sent with two last chunks (refuted)."
  },
  {
   "property": "C179",
   "status": "partial",
   "theorems": [
    "C179_in_order_partial",
    "C179_refuted"
   ],
   "note": "For requests that may be repeated. A POST behind a pending response is sent at once, and its head again and again (refuted)."
  },
  {
   "property": "C180",
   "status": "partial",
   "theorems": [
    "C180_exchanges_partial",
    "C180_refuted"
   ],
   "note": "For new requests that may be repeated, all sent before the first response. With Expect: 100-continue the method is called twice, first with status 100 (refuted)."
  },
  {
   "property": "C181",
   "status": "partial",
   "theorems": [
    "C181_no_exception_partial",
    "C181_refuted"
   ],
   "note": "For statuses that are not redirects to be followed nor 401. A 304 raises AttributeError (refuted)."
  },
  {
   "property": "C182",
   "status": "partial",
   "theorems": [
    "C182_broken",
    "C182_sending",
    "C182_connecting",
    "C182_reset_partial",
    "C182_refuted"
   ],
   "note": "For failures before the first byte of a response. An error raised by recv, or the end of the stream, finishes the requests with status 0 but with no error (refuted)."
  },
  {
   "property": "C183",
   "status": "partial",
   "theorems": [
    "C183_location_partial",
    "C183_served_partial",
    "C183_refuted",
    "C183_parts_refuted",
    "C183_http_refuted"
   ],
   "note": "Directly: keys of one part whose literal has only unreserved characters. Over HTTP: keys of any number of parts without / ? , = and characters that are not URI characters. A key with a space is read as another key, keys of several parts are refused, and over HTTP a key with a comma is (refuted)."
  },
  {
   "property": "C184",
   "status": "partial",
   "theorems": [
    "C184_paths_partial",
    "C184_refuted"
   ],
   "note": "Exactly which paths are accepted and what they mean. $metadata and $batch are also accepted after other segments and $links without an entity; an unknown option is a ValueError (refuted)."
  },
  {
   "property": "C185",
   "status": "proved",
   "theorems": [
    "C185_options",
    "C185_refused",
    "C185_accepted"
   ],
   "note": "For $links, $metadata, $batch and $count, the options that the code checks; those of $value and of plain paths are not checked there."
  },
  {
   "property": "C186",
   "status": "proved",
   "theorems": [
    "C186_expand",
    "C186_expand_refuses",
    "C186_select",
    "C186_select_refuses",
    "C186_expand_written",
    "C186_select_written",
    "C186_canonical"
   ],
   "note": ""
  },
  {
   "property": "C187",
   "status": "proved",
   "theorems": [
    "C187_options"
   ],
   "note": "The values of $filter, $orderby and $format are read by a parameter."
  },
  {
   "property": "C188",
   "status": "partial",
   "theorems": [
    "C188_others_partial",
    "C188_ours",
    "C188_refuted"
   ],
   "note": "A path that begins with the text of the root is served although another segment begins there: /x.svc2 by /x.svc (refuted)."
  },
  {
   "property": "C189",
   "status": "proved",
   "theorems": [
    "C189_read",
    "C189_steps",
    "C189_one_tree",
    "C189_one_text",
    "C189_reader",
    "C189_put_together"
   ],
   "note": "Default options; Document with elements of class Element; no document type declaration."
  },
  {
   "property": "C190",
   "status": "partial",
   "theorems": [
    "C190_partial",
    "C190_plain_is_xml",
    "C190_refuted",
    "C190_refused"
   ],
   "note": "For documents with names in the basic plane, no two question marks side by side in an instruction, and no instruction with a target that begins with xml at the start. <a><?p ??><b/><?q?></a> loses the element b without notice (refuted); the others are refused."
  },
  {
   "property": "C191",
   "status": "partial",
   "theorems": [
    "C191_partial",
    "C191_refuted"
   ],
   "note": "Up to an unfinished comment or instruction at the end, and for texts with legal characters, without white space before the > of a comment and without two question marks side by side. A comment that is not closed and control characters are accepted (refuted)."
  },
  {
   "property": "C192",
   "status": "partial",
   "theorems": [
    "C192_length",
    "C192_partial",
    "C192_refuted"
   ],
   "note": "For texts without ]]>; reading ends within the length of the text or never. <a>]]></a> is read for ever (refuted)."
  },
  {
   "property": "C193",
   "status": "partial",
   "theorems": [
    "C193_partial",
    "C193_refused",
    "C193_refuted"
   ],
   "note": "Other exceptions come only from texts with &# (ValueError, OverflowError) or <? (AttributeError, TypeError); each does (refuted)."
  },
  {
   "property": "C194",
   "status": "partial",
   "theorems": [
    "C194_partial",
    "C194_spaces",
    "C194_well_formed",
    "C194_again",
    "C194_ascii",
    "C194_refuted"
   ],
   "note": "For values of attributes without tabs and line ends, which come back as spaces (C194_spaces, refuted). Elements of class Element, texts not empty and not side by side."
  },
  {
   "property": "C195",
   "status": "proved",
   "theorems": [
    "C195_equal",
    "C195_order",
    "C195_one_form",
    "C195_opposite",
    "C195_self",
    "C195_transitive"
   ],
   "note": "Elements of class Element without namespaces; equality and order in terms of canonical forms for texts not side by side, the order laws for all."
  },
  {
   "property": "C196",
   "status": "partial",
   "theorems": [
    "C196_partial",
    "C196_preserved",
    "C196_again",
    "C196_refuted"
   ],
   "note": "If there is at most one child or an element among them. Several texts alone lose the space at the end that one text keeps, and if all are blank an empty text comes before the space (refuted)."
  },
  {
   "property": "C197",
   "status": "partial",
   "theorems": [
    "C197_partial",
    "C197_refuted"
   ],
   "note": "For elements without maps set before, in which no attribute is in a namespace of an element (other than that of xml) and no element without namespace is inside one with a namespace. An attribute in the namespace of its element is written without prefix, and an element without namespace inside a default namespace without xmlns='' (both refuted). Values on one line."
  },
  {
   "property": "C198",
   "status": "partial",
   "theorems": [
    "C198_partial",
    "C198_one",
    "C198_refuted"
   ],
   "note": "For documents without xmlns='', without other attributes whose names begin with xmlns, without elements of the name xmlns and without the namespace ~; each of the four is misread (refuted). The meaning is unique (C198_one)."
  },
  {
   "property": "C199",
   "status": "partial",
   "theorems": [
    "C199_partial",
    "C197_refuted"
   ],
   "note": "As C197, for names that do not begin with xmlns."
  },
  {
   "property": "C200",
   "status": "partial",
   "theorems": [
    "C200_partial",
    "C200_refuted",
    "C200_refused"
   ],
   "note": "If no element declares a namespace twice, no attribute with a prefix is in the default namespace, and as C198. Otherwise the attribute can lose its namespace (refuted) and writing can raise ValueError (C200_refused)."
  },
  {
   "property": "C201",
   "status": "proved",
   "theorems": [
    "C201_prefix",
    "C201_new",
    "C201_make",
    "C201_refused",
    "C201_map"
   ],
   "note": "Prefixes that are NCNames of the basic plane other than xml and those that begin with xmlns."
  },
  {
   "property": "C202",
   "status": "partial",
   "theorems": [
    "C202_partial",
    "C202_refuted"
   ],
   "note": "If no element has two prefixes for one namespace. Otherwise the last one made may be hidden by an element inside and the other is not tried (refuted)."
  },
  {
   "property": "C203",
   "status": "proved",
   "theorems": [
    "C203"
   ],
   "note": ""
  },
  {
   "property": "C204",
   "status": "partial",
   "theorems": [
    "C204_partial",
    "C204_refuted"
   ],
   "note": "Only that names have one colon at most. Prefixes that are not bound are accepted, and of two attributes with the same expanded name the last is kept (refuted)."
  },
  {
   "property": "C205",
   "status": "proved",
   "theorems": [
    "C205_contained",
    "C205_leaving"
   ],
   "note": "Paths as on POSIX, no symbolic links, a package directory that is not the root."
  },
  {
   "property": "C206",
   "status": "proved",
   "theorems": [
    "C206_unpacked",
    "C206_nothing_else",
    "C206_no_duplicates"
   ],
   "note": ""
  },
  {
   "property": "C207",
   "status": "proved",
   "theorems": [
    "C207_roundtrip"
   ],
   "note": "The system refuses nothing below the new directory. The format of the zip file itself is Python's."
  },
  {
   "property": "C208",
   "status": "proved",
   "theorems": [
    "C208_relative",
    "C208_package"
   ],
   "note": "Absolute paths do not begin with exactly two slashes."
  },
  {
   "property": "C209",
   "status": "partial",
   "theorems": [
    "C209_new_name_partial",
    "C209_numbers",
    "C209_outside",
    "C209_not_unique_refuted"
   ],
   "note": "Ends, stays in the directory, is the suggestion if that is free; new if texts have the hash values of paths. They have not, so a name in use can be returned (refuted)."
  },
  {
   "property": "C210",
   "status": "proved",
   "theorems": [
    "C210_absolute",
    "C210_relative",
    "C210_here",
    "C210_default"
   ],
   "note": "A relative path that leads back to its start is normalised to a full stop, which the default pattern ignores (C210_here)."
  },
  {
   "property": "C211",
   "status": "partial",
   "theorems": [
    "C211_rebuild_partial",
    "C211_file_partial",
    "C211_file_added",
    "C211_outside",
    "C211_detours_refuted"
   ],
   "note": "For references without detours; with a detour File and RebuildFileTable make different entries (refuted). Outside the package NameError is raised (C211_outside)."
  },
  {
   "property": "C212",
   "status": "partial",
   "theorems": [
    "C212_deleted_partial",
    "C212_outside",
    "C212_manifest_refuted",
    "C212_half_done_refuted",
    "C212_no_file_refuted"
   ],
   "note": "If all file elements lead into the package without detours. The manifest can be deleted; a file element elsewhere that is not in the package makes the deletion fail half-way; an href that is no file returns an exception instead of raising it (refuted)."
  },
  {
   "property": "C213",
   "status": "proved",
   "theorems": [
    "C213_read"
   ],
   "note": "A parameter whose value is no token comes back marked as quoted; empty values must be so marked."
  },
  {
   "property": "C214",
   "status": "partial",
   "theorems": [
    "C214_partial",
    "C214_refused",
    "C214_refuted"
   ],
   "note": "For Basic challenges with the realm alone. With two or more parameters every written challenge is refused: the space after the comma ends the parameters (C214_refused, refuted)."
  },
  {
   "property": "C215",
   "status": "partial",
   "theorems": [
    "C215_partial",
    "C215_refused",
    "C215_other_scheme",
    "C215_refuted"
   ],
   "note": "For at most one challenge, with scheme Basic. Two and more Basic challenges are always refused with a syntax error; of another scheme the scheme and the first parameter are lost, and without parameters TypeError is raised (refuted)."
  },
  {
   "property": "C216",
   "status": "proved",
   "theorems": [
    "C216_lookup",
    "C216_missing",
    "C216_realm"
   ],
   "note": "Of several parameters with the same name the last counts."
  },
  {
   "property": "C217",
   "status": "partial",
   "theorems": [
    "C217_partial",
    "C217_any_case",
    "C217_refused",
    "C217_base64",
    "C217_refuted"
   ],
   "note": "For passwords without colon; every password with a colon raises NameError (C217_refused, refuted). base64 is modelled after binascii."
  },
  {
   "property": "C218",
   "status": "proved",
   "theorems": [
    "C218_history",
    "C218_segments",
    "C218_never_lost",
    "C218_itself",
    "C218_shortest",
    "C218_rest"
   ],
   "note": "Normalised segments are those of Uri.v; C218_segments gives them for paths without dots."
  },
  {
   "property": "C219",
   "status": "partial",
   "theorems": [
    "C219_first",
    "C219_given",
    "C219_partial",
    "C219_sent",
    "C219_refuted"
   ],
   "note": "For accepted paths with no empty segment before the end; credentials accepted for //x are sent to /secret/x (refuted)."
  },
  {
   "property": "C220",
   "status": "partial",
   "theorems": [
    "C220_partial",
    "C220_only",
    "C220_realm_refuted",
    "C220_scheme_refuted"
   ],
   "note": "For Basic challenges and credentials without realm. Credentials with a realm raise AttributeError for every challenge of their protection space; a challenge of another scheme raises TypeError (refuted)."
  },
  {
   "property": "C221",
   "status": "partial",
   "theorems": [
    "C221_accepted",
    "C221_untried",
    "C221_challenged_partial",
    "C221_refuted"
   ],
   "note": "For one Basic challenge, untried credentials and none with a realm. Refused credentials raise AttributeError; a 401 without WWW-Authenticate raises TypeError (refuted). Redirections are outside."
  },
  {
   "property": "C222",
   "status": "partial",
   "theorems": [
    "C222_limit_partial",
    "C222_limit_refuted"
   ],
   "note": "For histories in which no thread gives back a killed connection after being bound to a new one to its target (no_surprise). Otherwise more than maxConnections may be open (refuted)."
  },
  {
   "property": "C223",
   "status": "partial",
   "theorems": [
    "C223_rules_partial",
    "C223_owner_partial",
    "C223_ended_partial",
    "C223_new_each_time",
    "C223_refuted"
   ],
   "note": "For histories in which no thread gives back a killed connection after being bound to a new one to its target (no_surprise). Otherwise a killed connection may be used again (refuted). C223_new_each_time holds of all histories."
  },
  {
   "property": "C224",
   "status": "proved",
   "theorems": [
    "C224_queued"
   ],
   "note": ""
  },
  {
   "property": "C225",
   "status": "proved",
   "theorems": [
    "C225_choice",
    "C225_schemes"
   ],
   "note": "For http and https; C229 has other schemes."
  },
  {
   "property": "C226",
   "status": "partial",
   "theorems": [
    "C226_awake_partial",
    "C226_awake_refuted"
   ],
   "note": "For histories in which no thread gives back a killed connection after being bound to a new one to its target (no_surprise). And for requests for http and https only: a waiting call for another scheme takes a wake-up with it when it raises NotImplementedError (refuted)."
  },
  {
   "property": "C227",
   "status": "partial",
   "theorems": [
    "C227_refused",
    "C227_close",
    "C227_for_good",
    "C227_nothing_new_partial",
    "C227_nothing_new_refuted",
    "C227_finishes"
   ],
   "note": "Nothing is created or used after Close if no call waited; a call that waited goes on and creates a connection (refuted)."
  },
  {
   "property": "C228",
   "status": "proved",
   "theorems": [
    "C228_active",
    "C228_idle"
   ],
   "note": ""
  },
  {
   "property": "C229",
   "status": "partial",
   "theorems": [
    "C229_no_errors_partial",
    "C229_refuted"
   ],
   "note": "For histories in which no thread gives back a killed connection after being bound to a new one to its target (no_surprise). Otherwise ActiveCleanup may raise KeyError (refuted)."
  },
  {
   "property": "C230",
   "status": "proved",
   "theorems": [
    "C230_order",
    "C230_answered"
   ],
   "note": "What the translated expressions mean is C160 and C161."
  },
  {
   "property": "C231",
   "status": "proved",
   "theorems": [
    "C231_generated"
   ],
   "note": ""
  },
  {
   "property": "C232",
   "status": "proved",
   "theorems": [
    "C232_all"
   ],
   "note": ""
  },
  {
   "property": "C233",
   "status": "partial",
   "theorems": [
    "C233_partial",
    "C233_rejected",
    "C233_refuted"
   ],
   "note": "Data is accepted only if some beginning of it is derived, and is rejected with NameError always. Trailing text is accepted, and data that needs another than the alternative that fails first is rejected (refuted)."
  },
  {
   "property": "C234",
   "status": "proved",
   "theorems": [
    "C234_added",
    "C234_again"
   ],
   "note": ""
  },
  {
   "property": "C235",
   "status": "partial",
   "theorems": [
    "C235_partial",
    "C235_refuted"
   ],
   "note": "For definitions returned by AddRule. Defining a name as another that is not defined yet leaves it undefined for good (refuted)."
  },
  {
   "property": "C236",
   "status": "partial",
   "theorems": [
    "C236_partial",
    "C236_refuted"
   ],
   "note": "Names in lower case only; others raise KeyError, and rules that refer to the name already keep the old alternatives only (refuted)."
  },
  {
   "property": "C237",
   "status": "proved",
   "theorems": [
    "C237_declare",
    "C237_undeclare"
   ],
   "note": ""
  },
  {
   "property": "C238",
   "status": "proved",
   "theorems": [
    "C238_lookup",
    "C238_one"
   ],
   "note": ""
  },
  {
   "property": "C239",
   "status": "partial",
   "theorems": [
    "C239_partial",
    "C239_len_refuted"
   ],
   "note": "All but len, which raises NameError or TypeError for every scope (refuted)."
  },
  {
   "property": "C240",
   "status": "proved",
   "theorems": [
    "C240_literals",
    "C240_refused",
    "C240_round_trip"
   ],
   "note": ""
  },
  {
   "property": "C241",
   "status": "proved",
   "theorems": [
    "C241_set",
    "C241_refused",
    "C241_stored"
   ],
   "note": "Infinities and NaN are not modelled."
  },
  {
   "property": "C242",
   "status": "proved",
   "theorems": [
    "C242_literals",
    "C242_refused"
   ],
   "note": ""
  },
  {
   "property": "C243",
   "status": "partial",
   "theorems": [
    "C243_set_partial",
    "C243_limit_partial",
    "C243_read_back_partial",
    "C243_rounded_partial",
    "C243_refuted"
   ],
   "note": "For numbers below 10^29 that have at most 29 places or are below 0.1-10^-29. 10^29 and some negative numbers beyond it are accepted and cannot be written, nor can a zero with a large exponent; a number of 0.1 or more with more than 29 places raises InvalidOperation (refuted)."
  },
  {
   "property": "C244",
   "status": "partial",
   "theorems": [
    "C244_round_trip",
    "C244_literals_partial",
    "C244_refused",
    "C244_literals_refuted"
   ],
   "note": "Any of the hyphens may be missing from an accepted literal (refuted); nothing else is accepted."
  },
  {
   "property": "C245",
   "status": "proved",
   "theorems": [
    "C245_literals",
    "C245_refused",
    "C245_round_trip"
   ],
   "note": ""
  },
  {
   "property": "C246",
   "status": "proved",
   "theorems": [
    "C246_literals",
    "C246_refused",
    "C246_round_trip"
   ],
   "note": ""
  },
  {
   "property": "C247",
   "status": "proved",
   "theorems": [
    "C247_validate"
   ],
   "note": "For types that have no property named *, which is not a simple identifier, and options in which a name occurs once at each place, as in a dictionary."
  },
  {
   "property": "C248",
   "status": "proved",
   "theorems": [
    "C248_selected",
    "C248_values",
    "C248_expansions",
    "C248_tag"
   ],
   "note": ""
  },
  {
   "property": "C249",
   "status": "partial",
   "theorems": [
    "C249_partial",
    "C249_refuted"
   ],
   "note": "Neither method copies anything: SetFromComplex sets each property from itself, and SetFromEntity raises AttributeError as soon as an entity has a second property to set (refuted). Proved: nothing is changed, and when SetFromComplex raises."
  },
  {
   "property": "C250",
   "status": "partial",
   "theorems": [
    "C250_partial",
    "C250_refuted"
   ],
   "note": "Proved for a change of one simple property from one literal to another, and that keys and tokens do not matter. Literals are hashed one after the other with nothing between them, so that ab, c and a, bc are the same, as are NULL and the empty string (refuted)."
  },
  {
   "property": "C251",
   "status": "partial",
   "theorems": [
    "C251_partial",
    "C251_refuted"
   ],
   "note": "Integers count up to the greatest value, bytes and text fit their facets and tell digests apart that are not cut. DateTime, Guid and other tokens raise NameError, as DateTimeOffset is not defined in the module, and an integer at its limit raises ValueError (refuted)."
  },
  {
   "property": "C252",
   "status": "proved",
   "theorems": [
    "C252_read",
    "C252_taken",
    "C252_all",
    "C252_open"
   ],
   "note": ""
  },
  {
   "property": "C253",
   "status": "partial",
   "theorems": [
    "C253_partial",
    "C253_far",
    "C253_refuted"
   ],
   "note": "Proved for positions in the buffer, with the errors. Beyond it, what is skipped is counted twice, so that a seek over more than one block reads from the wrong place, and after a seek past CONTENT_LENGTH a read takes all of the server's stream (refuted)."
  },
  {
   "property": "C254",
   "status": "partial",
   "theorems": [
    "C254_line",
    "C254_hint_partial",
    "C254_refuted"
   ],
   "note": "readline is proved, and readlines with a hint that is less than what is left. Iteration and readlines without a hint never end (refuted)."
  },
  {
   "property": "C255",
   "status": "proved",
   "theorems": [
    "C255_nonces"
   ],
   "note": "For a clock that does not go back."
  },
  {
   "property": "C256",
   "status": "partial",
   "theorems": [
    "C256_partial",
    "C256_refuted"
   ],
   "note": "Proved with os.urandom, but for the number of bits, which is at least keyLength just for multiples of 16 and one less than those. Without os.urandom digits are chosen from a list that has a G (refuted)."
  },
  {
   "property": "C257",
   "status": "partial",
   "theorems": [
    "C257_partial",
    "C257_refuted"
   ],
   "note": "A key that is made is not looked up, so that in the unlikely case that it is in use the other consumer is lost (refuted)."
  },
  {
   "property": "C258",
   "status": "partial",
   "theorems": [
    "C258_partial",
    "C258_generated",
    "C258_kept",
    "C258_refuted"
   ],
   "note": "For keys and secrets without white space and keys that do not begin with #, as generated ones are; others are not read back (refuted)."
  },
  {
   "property": "C259",
   "status": "partial",
   "theorems": [
    "C259_partial",
    "C259_malformed",
    "C259_refuted"
   ],
   "note": "For headers whose values are versions; exactly the requests with one that is no version are answered by 500, and a greatest version below 1.0 by 1.0 (refuted). What the first token of a value is, is a parameter."
  },
  {
   "property": "C260",
   "status": "partial",
   "theorems": [
    "C260_partial",
    "C260_latin",
    "C260_kept",
    "C260_answers",
    "C260_fails",
    "C260_refuted"
   ],
   "note": "For values that are not binary, of properties without MimeType, got as text; PUT of all others fails with 500 (C260_fails, refuted)."
  },
  {
   "property": "C261",
   "status": "partial",
   "theorems": [
    "C261_partial",
    "C261_refuted",
    "C261_refused"
   ],
   "note": "All but a binary value of a property with a MimeType, for which hexadecimal digits are sent (refuted)."
  },
  {
   "property": "C262",
   "status": "partial",
   "theorems": [
    "C262_utf8",
    "C262_wide",
    "C262_marks_partial",
    "C262_refuted"
   ],
   "note": "All but UTF-16 with a byte order mark, which is not found if a character of ASCII follows (refuted)."
  },
  {
   "property": "C263",
   "status": "partial",
   "theorems": [
    "C263_partial",
    "C263_said",
    "C263_utf8",
    "C263_refuted"
   ],
   "note": "For texts in UTF-8 that begin with controls, as line ends, and not with a space; JSON in another charset is refused (refuted)."
  }
 ]
}