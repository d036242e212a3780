{
 "claims": [
  {
   "property": "C01",
   "status": "proved",
   "theorems": [
    "C01_structure_is_all_unions"
   ],
   "note": "make_structure modelled line by line; sets as lists compared by elements"
  },
  {
   "property": "C02",
   "status": "proved",
   "theorems": [
    "C02_minimal_generating_set",
    "C02_order_independent",
    "C02_smallest_cover_refuted"
   ],
   "note": "the docstring's wording about smallest cover is refuted; the guarantee that holds is proved"
  },
  {
   "property": "C03",
   "status": "proved",
   "theorems": [
    "C03_history_invariant",
    "C03_add_one_accepted_iff",
    "C03_add_many_accepted_iff",
    "C03_drop_accepted_iff",
    "C03_effect"
   ],
   "note": "histories of add/add-many/drop partition calls; label column changes are separate"
  },
  {
   "property": "C04",
   "status": "proved",
   "theorems": [
    "C04_none",
    "C04_defined",
    "C04_entropy",
    "C04_blocks",
    "C04_range",
    "C04_monotone",
    "C04_equal",
    "C04_whole",
    "C04_zero",
    "C04_finest"
   ],
   "note": "Granularity over exact reals: entropy of the blocks, range, monotone under refinement, equality iff same blocks, finest level unique."
  },
  {
   "property": "C05",
   "status": "proved",
   "theorems": [
    "C05_agree",
    "C05_reached"
   ],
   "note": "Plain and SQL computations agree on every reachable index (exact reals)."
  },
  {
   "property": "C06",
   "status": "proved",
   "theorems": [
    "C06_of_bits",
    "C06_of_bytes",
    "C06_bytes_round_trip",
    "C06_equality",
    "C06_getitem",
    "C06_or",
    "C06_bytes_equality_refuted"
   ],
   "note": "bit constructors, byte round trip, equality, indexing and union; comparing with a bytes object by its bits is refuted"
  },
  {
   "property": "C07",
   "status": "proved",
   "theorems": [
    "C07_meaning",
    "C07_constructed_simple",
    "C07_constructed_container",
    "C07_nested_is_refuted"
   ],
   "note": "every tree the constructors deliver except the self-containing objects made from :is(:is(..)), which are refuted"
  },
  {
   "property": "C08",
   "status": "proved",
   "theorems": [
    "C08_specificity",
    "C08_prescription_unique",
    "C08_reordering",
    "C08_compound_grows"
   ],
   "note": "specificity equals the documented pair; order independence and growth"
  },
  {
   "property": "C09",
   "status": "proved",
   "theorems": [
    "C09_equivalence",
    "C09_equal_match",
    "C09_ascii",
    "C09_unicode_refuted",
    "C09_specificity_refuted"
   ],
   "note": "equivalence for all texts; same matches when lower-case equality implies upper-case equality (ASCII instance proved); fails for Unicode case mappings and for specificity, both refuted"
  },
  {
   "property": "C10",
   "status": "proved",
   "theorems": [
    "C10_language_round_trip",
    "C10_parsed_in_language",
    "C10_round_trip",
    "C10_round_trip_double_quoted",
    "C10_parsed_is_proper",
    "C10_fuel_suffices",
    "C10_round_trip_refuted",
    "C10_nested_is_refuted",
    "C10_unquoted_value_refuted"
   ],
   "note": "round trip for every selector of the language with printable values and for every parsed selector with printable values (automatic without single quotes); the unconditional claim is refuted"
  },
  {
   "property": "C11",
   "status": "proved",
   "theorems": [
    "C11_greatest_unique",
    "C11_right_key_unique",
    "C11_order_independent"
   ],
   "note": "dictionaries with distinct keys; keys with None have no selectors"
  },
  {
   "property": "C12",
   "status": "proved",
   "theorems": [
    "C12_conserves",
    "C12_raises"
   ],
   "note": "Exact rationals instead of floats."
  },
  {
   "property": "C13",
   "status": "proved",
   "theorems": [
    "C13_proportional",
    "C13_nonnegative",
    "C13_negative_weights_refuted"
   ],
   "note": "Exact rationals instead of floats; nonnegativity needs nonnegative weights, refuted otherwise."
  },
  {
   "property": "C14",
   "status": "proved",
   "theorems": [
    "C14_quantize",
    "C14_whole_total",
    "C14_mixed_signs_refuted",
    "C14_wrong_total_refuted"
   ],
   "note": "Exact rationals; mixed signs and wrong totals are refuted."
  },
  {
   "property": "C15",
   "status": "proved",
   "theorems": [
    "C15_order_independent",
    "C15_splitmix_bijective"
   ],
   "note": "Distinct 64-bit ids."
  },
  {
   "property": "C16",
   "status": "proved",
   "theorems": [
    "C16_reached",
    "C16_read",
    "C16_conserved",
    "C16_grand_total",
    "C16_whole",
    "C16_succeeds",
    "C16_undefined_refuted",
    "C16_log_refuted",
    "C16_unmatched_fails"
   ],
   "note": "Reading a space: each selected quantity at a structured location is read once and divided without loss; totals per attributes; exact success condition; findings on the undefined record, the log and unmatched locations."
  },
  {
   "property": "C17",
   "status": "proved",
   "theorems": [
    "C17_refresh"
   ],
   "note": "Exact rationals for stored floats."
  },
  {
   "property": "C18",
   "status": "proved",
   "theorems": [
    "C18_loaded",
    "C18_chosen_link",
    "C18_amounts",
    "C18_totals",
    "C18_spaces",
    "C18_quantized_close",
    "C18_succeeds",
    "C18_dropped_refuted"
   ],
   "note": "Exact rationals; end to end for all spaces that can be made in one session; a link with a hand-set hash drops quantities (refuted variant)."
  },
  {
   "property": "C19",
   "status": "proved",
   "theorems": [
    "C19_columns",
    "C19_grouped_totals",
    "C19_one_record_per_pair",
    "C19_grand_total",
    "C19_output_succeeds"
   ],
   "note": ""
  },
  {
   "property": "C20",
   "status": "proved",
   "theorems": [
    "C20_cells",
    "C20_mean_cells",
    "C20_sum",
    "C20_succeeds"
   ],
   "note": "Sum and mean; the order of the columns is not modelled."
  },
  {
   "property": "C21",
   "status": "proved",
   "theorems": [
    "C21_load",
    "C21_load_fails",
    "C21_finer_first",
    "C21_all_levels",
    "C21_fails",
    "C21_matches",
    "C21_sound",
    "C21_limit",
    "C21_no_overlap",
    "C21_counters",
    "C21_fully_matched",
    "C21_row_dropped_refuted",
    "C21_limit_twice_refuted"
   ],
   "note": "On states reachable by any history: exact matches of every row, soundness, limit, overlap rule, order of levels, counters, failures, complete matching; on a first call (a second call adds matches again: refuted). Rows arrive parsed; granularity is an arbitrary function of the structure row."
  },
  {
   "property": "C22",
   "status": "proved",
   "theorems": [
    "C22_shares",
    "C22_total",
    "C22_pairs",
    "C22_levels",
    "C22_keys",
    "C22_directions",
    "C22_stored",
    "C22_fully_matched_refuted"
   ],
   "note": "Shares, totals for any selection of rows, value at each pair and level, both directions, and storage through insert_mappings2; exact rationals."
  },
  {
   "property": "C23",
   "status": "proved",
   "theorems": [
    "C23_closed",
    "C23_all_or_nothing",
    "C23_error",
    "C23_nested",
    "C23_history",
    "C23_masked_refuted",
    "C23_swallowed_refuted",
    "C23_unmanaged_refuted"
   ],
   "note": "Transactions as programs of statements over a connection with committed and working states; failures of statements, BEGIN and COMMIT and interrupts at every point. Refutations: error masked when SQLite gave up the transaction; a body that swallows such an error leaves later writes; delete_unmatched_quantities and reify_mappings do not use a transaction."
  },
  {
   "property": "C24",
   "status": "proved",
   "theorems": [
    "C24_atomic",
    "C24_durable",
    "C24_success",
    "C24_works",
    "C24_failure",
    "C24_masked_refuted",
    "C24_interrupt_refuted"
   ],
   "note": "save_to_file with a fault at every system call; atomicity of os.replace is part of the model."
  },
  {
   "property": "C25",
   "status": "proved",
   "theorems": [
    "C25_ids_never_reused"
   ],
   "note": "All histories of the modelled operations."
  },
  {
   "property": "C26",
   "status": "proved",
   "theorems": [
    "C26_labels_identify"
   ],
   "note": "All histories."
  },
  {
   "property": "C27",
   "status": "proved",
   "theorems": [
    "C27_hash",
    "C27_same_hash"
   ],
   "note": "Hash represented by the list of ids it digests (see C40)."
  },
  {
   "property": "C28",
   "status": "proved",
   "theorems": [
    "C28_weights",
    "C28_weights_belong",
    "C28_orphan_weights_refuted"
   ],
   "note": "Reference part proved for one session; refuted for reopened spaces (finding)."
  },
  {
   "property": "C29",
   "status": "proved",
   "theorems": [
    "C29_complete_flag_sound",
    "C29_complete_flag_exact",
    "C29_empty_index_refuted",
    "C29_reopened_refuted"
   ],
   "note": "Soundness for all histories that do not set the flag by hand; exactness within one session; findings for empty index and reopened spaces."
  },
  {
   "property": "C30",
   "status": "proved",
   "theorems": [
    "C30_link_table",
    "C30_add_link",
    "C30_edit_link",
    "C30_drop_link",
    "C30_failed_changes_nothing"
   ],
   "note": "All histories."
  },
  {
   "property": "C31",
   "status": "proved",
   "theorems": [
    "C31_mappings",
    "C31_mappings_belong",
    "C31_orphan_mappings_refuted"
   ],
   "note": "Reference part proved for one session; refuted for reopened spaces (finding)."
  },
  {
   "property": "C32",
   "status": "proved",
   "theorems": [
    "C32_update_index_conserves",
    "C32_merge",
    "C32_unchanged_row_refuted"
   ],
   "note": "Finding: a row with unchanged labels deletes the record."
  },
  {
   "property": "C33",
   "status": "proved",
   "theorems": [
    "C33_delete_rows",
    "C33_delete_criteria"
   ],
   "note": "Locations and quantities are not in this model (see C34, C36)."
  },
  {
   "property": "C34",
   "status": "proved",
   "theorems": [
    "C34_tables",
    "C34_references",
    "C34_policy",
    "C34_total",
    "C34_order",
    "C34_accepts",
    "C34_failure",
    "C34_older"
   ],
   "note": "All policies of insert_quantities2: value at every place, well-formed tables in every history, total, row order, exact acceptance condition; the older insert_quantities too."
  },
  {
   "property": "C35",
   "status": "proved",
   "theorems": [
    "C35_add_or_resolve",
    "C35_refused"
   ],
   "note": ""
  },
  {
   "property": "C36",
   "status": "proved",
   "theorems": [
    "C36_reported",
    "C36_counts",
    "C36_deleted",
    "C36_deleted_index",
    "C36_select",
    "C36_undefined_refuted",
    "C36_reopened_refuted"
   ],
   "note": "Reported means: level not in the structure or no record other than the undefined one agrees. The English claim fails for locations agreeing only with the undefined record (C36_undefined_refuted) and, for the deletion, after reopening the space (C36_reopened_refuted)."
  },
  {
   "property": "C37",
   "status": "proved",
   "theorems": [
    "C37_long_sequences",
    "C37_long_lossless",
    "C37_long_missing",
    "C37_long_name",
    "C37_long_mappings",
    "C37_long_mappings_lossless",
    "C37_long_other",
    "C37_narrow_mappings",
    "C37_narrow_sequences",
    "C37_narrow_clash",
    "C37_narrow_missing",
    "C37_narrow_agrees",
    "C37_iterator_refuted",
    "C37_iterator_loses",
    "C37_same_name_refuted",
    "C37_overwritten_refuted",
    "C37_extra_cells_refuted",
    "C37_extra_keys_refuted",
    "C37_no_columns_refuted",
    "C37_empty_refuted"
   ],
   "note": "wide_to_long and wide_to_narrow: one block of long rows for each wide row, in order, with the kept cells and the stacked cell; two wide tables with the same header and the same long table are equal; which inputs raise. Findings: one-shot iterator of columns loses all rows; equal names, clashing names, extra cells and extra keys lose data silently."
  },
  {
   "property": "C38",
   "status": "proved",
   "theorems": [
    "C38_round_trip",
    "C38_overflow",
    "C38_shape",
    "C38_accepts",
    "C38_unicode",
    "C38_is_code",
    "C38_typo",
    "C38_typo_low",
    "C38_other_space",
    "C38_position",
    "C38_canonical_refuted",
    "C38_collision_refuted",
    "C38_struct_refuted"
   ],
   "note": "Exact CRC-32, packing, formatting and CPython's integer reading, for all texts and 64-bit ids. The part 'accepted only if it is the code of an id' is false of the code (C38_canonical_refuted); proved instead: accepted exactly if number, X, and hexadecimal number equal to the checksum."
  },
  {
   "property": "C39",
   "status": "proved",
   "theorems": [
    "C39_move",
    "C39_move_determined",
    "C39_display_complete",
    "C39_display_permutation",
    "C39_move_label",
    "C39_move_attribute",
    "C39_stale_display_refuted"
   ],
   "note": "The permutation part of the display order holds for histories without renaming or dropping labels; with renaming it is false (C39_stale_display_refuted)."
  },
  {
   "property": "C40",
   "status": "proved",
   "theorems": [
    "C40_accepts_exactly",
    "C40_otherwise_value_error",
    "C40_bytes",
    "C40_distinct",
    "C40_incremental",
    "C40_rejected_value_changes_nothing",
    "C40_carry_on",
    "C40_index_hash"
   ],
   "note": "SHA-256 itself is not modelled: the theorems are about the bytes fed to it."
  },
  {
   "property": "C41",
   "status": "proved",
   "theorems": [
    "C41_get_link",
    "C41_meant_unique",
    "C41_get_link_error",
    "C41_translation_choice",
    "C41_same_search_refuted"
   ],
   "note": "get_link returns exactly the link meant by the reference; findings about find_links_by_ref."
  },
  {
   "property": "C42",
   "status": "proved",
   "theorems": [
    "C42_quantities",
    "C42_mappings",
    "C42_new_mappings",
    "C42_succeeds",
    "C42_null_target_refuted",
    "C42_null_blocks_refuted",
    "C42_text_quantity_refuted"
   ],
   "note": "REAL values are exact rationals. Findings: a mapping from the undefined record to a missing (NULL) target is dropped although it is not undefined-to-undefined; NULL references that 0.2.0 allowed block the upgrade; texts among the quantities become numbers."
  },
  {
   "property": "C43",
   "status": "proved",
   "theorems": [
    "C43_names",
    "C43_case",
    "C43_add_accepts",
    "C43_rename_accepts",
    "C43_register_accepts"
   ],
   "note": "All histories, including dropping columns."
  },
  {
   "property": "C44",
   "status": "proved",
   "theorems": [
    "C44_display",
    "C44_whole_first",
    "C44_as_often",
    "C44_whole_once",
    "C44_raises",
    "C44_canonical",
    "C44_argument_kept_refuted",
    "C44_second_call"
   ],
   "note": "sort_partition_definitions: rearrangement of the given definitions with the whole space first, labels in label order, descending membership, each as often as given, raises exactly for unknown labels, result independent of iteration order. Finding: the list of the caller is changed."
  },
  {
   "property": "C45",
   "status": "proved",
   "theorems": [
    "C45_link_needed",
    "C45_exported",
    "C45_not_both",
    "C45_covers_target",
    "C45_covers_source",
    "C45_rows",
    "C45_writes",
    "C45_log",
    "C45_dishonest_flag_refuted",
    "C45_warning_refuted",
    "C45_dangling_target_refuted"
   ],
   "note": "Target and source are results of any histories of calls. Coverage theorems assume completeness was not claimed by hand. Findings: a link marked complete by hand hides unmatched records; the warnings name the wrong file; a dangling target (possible after storing and reopening) stops the output with a KeyError."
  },
  {
   "property": "C46",
   "status": "proved",
   "theorems": [
    "C46_distinct",
    "C46_texts",
    "C46_least",
    "C46_raises",
    "C46_enough",
    "C46_positive",
    "C46_zero_text_refuted",
    "C46_zero_distinct_refuted",
    "C46_negative_refuted",
    "C46_nan_refuted"
   ],
   "note": "format_granularity over exact magnitudes with correct rounding (half to even): equal texts exactly for equal values, same width, least number of places from 3 to 17, raises exactly if none works. Hypothesis: no negative zero; findings show that it is needed."
  },
  {
   "property": "C47",
   "status": "proved",
   "theorems": [
    "C47_positions_return",
    "C47_positions_limit",
    "C47_positions_found",
    "C47_positions_accept",
    "C47_mapping_rows",
    "C47_index_rows",
    "C47_index_limit",
    "C47_tabular_sequences",
    "C47_tabular_mappings",
    "C47_readerlike_sequences",
    "C47_readerlike_mappings",
    "C47_readerlike_dictreader",
    "C47_dictreaderlike_mappings",
    "C47_dictreaderlike_sequences",
    "C47_eager",
    "C47_none_row_refuted",
    "C47_same_side_refuted",
    "C47_tuple_header_refuted",
    "C47_empty_input_refuted"
   ],
   "note": "Streams_Model.v: normalize_tabular, make_readerlike, make_dictreaderlike, eagerly_initialize, get_column_positions, get_location_factory, make_getter_functions, normalize_mapping_data, remap_index_codes_to_index_ids, the look-ahead of the index command. Iterators are finite and may end with an error; parse_edge_shorthand is a parameter."
  },
  {
   "property": "C48",
   "status": "proved",
   "theorems": [
    "C48_delete_weights_rows",
    "C48_delete_weights_criteria",
    "C48_delete_mappings_rows",
    "C48_delete_mappings_criteria",
    "C48_cleared",
    "C48_hidden_mapping_refuted",
    "C48_reify_partial_effect_refuted"
   ],
   "note": "Findings: hidden mapping behind an ambiguous one; reify_mappings is not atomic."
  },
  {
   "property": "C49",
   "status": "proved",
   "theorems": [
    "C49_new_group_starts_empty",
    "C49_new_link_starts_empty",
    "C49_reopened_inherits_refuted"
   ],
   "note": "Finding: fails in reopened spaces."
  },
  {
   "property": "C50",
   "status": "proved",
   "theorems": [
    "C50_link_flag_sound",
    "C50_link_flag_exact",
    "C50_source_hash",
    "C50_proportions",
    "C50_negative_source_refuted"
   ],
   "note": "Finding: negative source ids never get a proportion."
  },
  {
   "property": "C51",
   "status": "proved",
   "theorems": [
    "C51_round_trip",
    "C51_unregistered_refuted"
   ],
   "note": "Round trip of select_quantities2 and insert_quantities2; without the hypothesis that all attributes are registered it is false (C51_unregistered_refuted)."
  },
  {
   "property": "C52",
   "status": "proved",
   "theorems": [
    "C52_structure",
    "C52_add_columns",
    "C52_rename_label",
    "C52_rename_many",
    "C52_partition_calls",
    "C52_dropped_column_refuted",
    "C52_drop_fails_refuted"
   ],
   "note": "Dropping label columns breaks it (two refutations)."
  },
  {
   "property": "C53",
   "status": "proved",
   "theorems": [
    "C53_exact",
    "C53_all_columns",
    "C53_eight_columns",
    "C53_many_columns_refuted",
    "C53_empty_level_refuted"
   ],
   "note": "Exact text proved for all levels and names; equal to the English claim whenever the level has a bit for each column, in particular up to eight columns. Refuted: more than eight columns, and the empty level."
  },
  {
   "property": "C54",
   "status": "proved",
   "theorems": [
    "C54_all_or_nothing",
    "C54_refused",
    "C54_once",
    "C54_rest",
    "C54_properties",
    "C54_other_version",
    "C54_domain_refuted",
    "C54_orphans_refuted",
    "C54_later_version_refuted"
   ],
   "note": "Findings: different domains can get the same name; a file with orphaned rows (see C28, C31) cannot be upgraded; files of later versions are accepted without an exception."
  },
  {
   "property": "C55",
   "status": "proved",
   "theorems": [
    "C55_export",
    "C55_import_is_operation",
    "C55_short_row",
    "C55_own_space",
    "C55_by_code",
    "C55_own_space_refuted",
    "C55_other_space",
    "C55_other_space_refuted",
    "C55_code_column_refuted",
    "C55_empty_line_refuted"
   ],
   "note": "Export: contents, order, success; import: own space, other space, rows with a code and a weight, for all policies; short rows refused; findings: the complete table is never accepted where a weight group is shared, a label column named like the code column is overwritten, empty lines are errors only in tables with codes. CSV quoting and the float text conversions are parameters (faithful)."
  },
  {
   "property": "C56",
   "status": "proved",
   "theorems": [
    "C56_right_source",
    "C56_source",
    "C56_target",
    "C56_log",
    "C56_verified",
    "C56_reopened_refuted",
    "C56_negative_refuted"
   ],
   "note": "Counts, log and verdict for all honest histories; the numbers of the target need one session (finding for reopened spaces), the verdict needs source ids that are not negative (finding). Not modelled: texts of the messages, get_mapping_info_str."
  },
  {
   "property": "C57",
   "status": "proved",
   "theorems": [
    "C57_read",
    "C57_sound",
    "C57_none",
    "C57_value_column",
    "C57_blank_names_refuted"
   ],
   "note": "The regular expression is modelled by its ordered backtracking matches; reading proved sound, complete and tidy, and the choice of the value column exact. Finding: names of white space only."
  },
  {
   "property": "C58",
   "status": "proved",
   "theorems": [
    "C58_numbers",
    "C58_links",
    "C58_one_side",
    "C58_all_or_nothing",
    "C58_report",
    "C58_report_true",
    "C58_calls",
    "C58_loaded",
    "C58_complete",
    "C58_understood_once",
    "C58_by_code",
    "C58_succeeds",
    "C58_round_trip",
    "C58_thousands_refuted",
    "C58_not_atomic_refuted",
    "C58_level_lost_refuted",
    "C58_label_column_refuted",
    "C58_incomplete_refuted",
    "C58_no_source_refuted"
   ],
   "note": "Full statement proved for the model; six findings: a number with a thousands separator is cut, a load in both directions is not atomic, coarser levels are lost in the exported table, a label column named like the link is read for the values, an exported incomplete mapping passes the completeness check, and rows without a source can become mappings from every record."
  },
  {
   "property": "C59",
   "status": "proved",
   "theorems": [
    "C59_select",
    "C59_select_unknown",
    "C59_select_total",
    "C59_choice",
    "C59_fails",
    "C59_rows",
    "C59_amounts",
    "C59_totals",
    "C59_target",
    "C59_succeeds",
    "C59_reader",
    "C59_chain",
    "C59_weights",
    "C59_shape",
    "C59_columns",
    "C59_table",
    "C59_table_error",
    "C59_undefined_refuted",
    "C59_stale_link_refuted"
   ],
   "note": "Exact rationals for floats. The spaces do not change while an iterator is read. The totals need all selectable links to be up to date; C59_stale_link_refuted shows that the code does not check this for links that are not the default, C59_undefined_refuted that a value on the undefined record is dropped by the next translation."
  },
  {
   "property": "C60",
   "status": "proved",
   "theorems": [
    "C60_refused",
    "C60_table_once",
    "C60_wrong_domain",
    "C60_usable",
    "C60_matches",
    "C60_no_category",
    "C60_unknown",
    "C60_counters",
    "C60_shares",
    "C60_same_rows",
    "C60_both_ways",
    "C60_one_side",
    "C60_calls",
    "C60_failed",
    "C60_loaded",
    "C60_succeeds",
    "C60_not_atomic_refuted",
    "C60_link_stays_refuted",
    "C60_direction_refuted",
    "C60_silent_refuted",
    "C60_column_name_refuted",
    "C60_blank_row_refuted",
    "C60_negative_refuted",
    "C60_no_granularity_refuted",
    "C60_empty_name_refuted"
   ],
   "note": "Exact rationals for floats; labels and header cells are texts; the two spaces are different files. Findings: loading is not atomic (links without mappings stay, one direction may be loaded), an unknown direction is accepted and loads nothing, rows that fit no record are not counted, a label equal to the name of its unknown column is passed over, blank rows fail only if domains are checked, negative values are accepted if they cancel, missing granularities fail only with two categories, an empty link name loads into another link."
  },
  {
   "property": "C61",
   "status": "proved",
   "theorems": [
    "C61_loaded",
    "C61_accepts",
    "C61_checked",
    "C61_failure",
    "C61_missing_column",
    "C61_empty_file",
    "C61_history",
    "C61_log",
    "C61_export",
    "C61_export_unregistered",
    "C61_round_trip",
    "C61_blank_line_refuted",
    "C61_not_a_number_refuted",
    "C61_no_attributes_refuted",
    "C61_label_quantity_refuted",
    "C61_domain_refuted"
   ],
   "note": "Loading, acceptance, failures, log, writing and the round trip are proved for all histories and tables. Findings: a blank line or a value that is no number ends the command with an exception instead of the message; a table without registered attributes succeeds and loads nothing; a label named 'quantity' is not reserved and breaks the round trip; a table with a domain is refused by a space with another one or none."
  },
  {
   "property": "C62",
   "status": "proved",
   "theorems": [
    "C62_rename",
    "C62_rename_when",
    "C62_drop",
    "C62_drop_when",
    "C62_all_or_nothing",
    "C62_keys_enforced",
    "C62_same_rename",
    "C62_same_drop",
    "C62_one_after_the_other_refuted",
    "C62_next_id",
    "C62_ids_go_on",
    "C62_id_reused_refuted",
    "C62_no_columns_refuted"
   ],
   "note": "Full, for any state with well-formed label tables; _refuted theorems are findings (ids reused after a deletion, acceptance differing from the newer calls)."
  },
  {
   "property": "C63",
   "status": "proved",
   "theorems": [
    "C63_usable",
    "C63_one_name",
    "C63_different",
    "C63_add_columns",
    "C63_rename_columns",
    "C63_drop_columns",
    "C63_unique_indexes",
    "C63_new_tables",
    "C63_copied_columns",
    "C63_refused",
    "C63_distinct",
    "C63_structure_update",
    "C63_quantities_by_structure",
    "C63_granularity",
    "C63_filter",
    "C63_filter_ids",
    "C63_find_location",
    "C63_by_structure",
    "C63_unknown_name",
    "C63_unknown_column_refuted",
    "C63_no_columns_refuted"
   ],
   "note": "Full for every statement that contains names of columns; _refuted theorems are findings (unknown columns in criteria, a space without columns)."
  },
  {
   "property": "C64",
   "status": "proved",
   "theorems": [
    "C64_uri",
    "C64_encoding",
    "C64_bind_existing",
    "C64_bind_missing",
    "C64_created_again",
    "C64_bind_error",
    "C64_read_only",
    "C64_read",
    "C64_recognised",
    "C64_backup",
    "C64_backup_name",
    "C64_cli_errors",
    "C64_bare_name_always_refused",
    "C64_bare_name_refuted",
    "C64_bytes_name_refuted",
    "C64_nul_refuted",
    "C64_backup_alias_refuted",
    "C64_outdated_refuted"
   ],
   "note": "Full for POSIX paths; _refuted theorems are findings (new file under a bare name, names that are not UTF-8, NUL, a backup over another node's file, outdated files read-only)."
  },
  {
   "property": "C65",
   "status": "proved",
   "theorems": [
    "C65_grammar",
    "C65_unambiguous",
    "C65_last_wins",
    "C65_roundtrip",
    "C65_ascii",
    "C65_canonical",
    "C65_loaded",
    "C65_triggers",
    "C65_null",
    "C65_portable",
    "C65_portable_back_refuted",
    "C65_link_selectors",
    "C65_weight_selectors",
    "C65_selectors_update",
    "C65_weight_selectors_refuted",
    "C65_user_properties",
    "C65_groups",
    "C65_add",
    "C65_get_by_value",
    "C65_get_or_add",
    "C65_update",
    "C65_delete",
    "C65_criteria",
    "C65_names",
    "C65_criteria_refuted",
    "C65_surrogates_refuted",
    "C65_property_put",
    "C65_property_add",
    "C65_property_update",
    "C65_property_delete",
    "C65_keep"
   ],
   "note": "Full; _refuted theorems are findings (repeated names and NaN differ between the two trigger versions, split surrogate pairs, find_by_criteria without criteria or with an empty or, before SQLite 3.45, non-ASCII name, weight groups with empty selectors)."
  },
  {
   "property": "C66",
   "status": "proved",
   "theorems": [
    "C66_encoding",
    "C66_rfc4180",
    "C66_written",
    "C66_roundtrip",
    "C66_write_fails",
    "C66_roundtrip_newlines",
    "C66_injective",
    "C66_total",
    "C66_args",
    "C66_args_clean",
    "C66_args_names",
    "C66_args_quoted",
    "C66_args_wrapped",
    "C66_args_wrapped_elsewhere",
    "C66_cr_splits_row_refuted",
    "C66_crlf_refuted",
    "C66_bom_refuted",
    "C66_args_quote_after_space_refuted",
    "C66_args_cr_refuted"
   ],
   "note": "Full; _refuted theorems are findings (a lone CR splits a row before Python 3.13, CR LF inside a cell becomes LF, a byte order mark stays in the first column name, a quoted name after comma and space is torn apart, a lone CR glues words)."
  },
  {
   "property": "C67",
   "status": "proved",
   "theorems": [
    "C67_add_attribute",
    "C67_unknown_of",
    "C67_add_partition",
    "C67_add_label",
    "C67_rename_label",
    "C67_refusal_exit_code_refuted",
    "C67_update_label",
    "C67_update_attribute",
    "C67_move_refuted",
    "C67_weight_groups",
    "C67_add_weight",
    "C67_update_weight",
    "C67_update_selectors",
    "C67_update_selectors_refuted",
    "C67_add_link",
    "C67_remove_link",
    "C67_remove_named_link",
    "C67_add_link_both_refuted",
    "C67_remove_link_empty_name_refuted",
    "C67_create_file",
    "C67_path_parts"
   ],
   "note": "Full; _refuted theorems are findings (refused labels can end in a traceback, moving by 0 or after a rename ends in a traceback, a selector both present, added and removed stays, duplicate selectors through line feeds, add link in both directions is not atomic, remove link with an empty name removes the default link)."
  },
  {
   "property": "C68",
   "status": "proved",
   "theorems": [
    "C68_partitions",
    "C68_definitions",
    "C68_label_order",
    "C68_weights",
    "C68_links",
    "C68_domain",
    "C68_outcome",
    "C68_history",
    "C68_history_labels",
    "C68_weights_readable",
    "C68_links_readable",
    "C68_repr_readable",
    "C68_command",
    "C68_attributes",
    "C68_renamed_label_refuted",
    "C68_dropped_column_refuted",
    "C68_default_none_refuted",
    "C68_none_refuted",
    "C68_remark_refuted",
    "C68_plain_loaded_refuted"
   ],
   "note": "Full; _refuted theorems are findings (a renamed label still appears after labels were moved, no description after a column was dropped or the default was set to none, a group called None or with a remark in its name cannot be told apart, without styles attributes with and without data look alike)."
  },
  {
   "property": "C69",
   "status": "proved",
   "theorems": [
    "C69_granularity",
    "C69_determined",
    "C69_healed",
    "C69_failed",
    "C69_rows",
    "C69_levels",
    "C69_kept",
    "C69_order",
    "C69_finest",
    "C69_replace_refuted",
    "C69_drop_refuted"
   ],
   "note": "Full; _refuted theorems are findings (insert_index with on_label_conflict='replace' and drop_index_columns leave granularities that are wrong)."
  },
  {
   "property": "C70",
   "status": "proved",
   "theorems": [
    "C70_default",
    "C70_calls",
    "C70_shows",
    "C70_by_name",
    "C70_choose",
    "C70_rest",
    "C70_drop",
    "C70_drop_refuted",
    "C70_first_refuted",
    "C70_choose_refuted",
    "C70_stale_refuted"
   ],
   "note": "Full; _refuted theorems are findings (a group cannot be dropped while no default is set, a first group made by insert_weights is not the default, choosing an unknown name breaks get_default_weight_group, a default set to a dropped group passes to the next group added)."
  },
  {
   "property": "C71",
   "status": "proved",
   "theorems": [
    "C71_table",
    "C71_readable",
    "C71_covers",
    "C71_no_link",
    "C71_select",
    "C71_select_error",
    "C71_agree",
    "C71_default_refuted"
   ],
   "note": "Full; the _refuted theorem is a finding (with the link name left out get_mapping always fails, also where there is a default link)."
  },
  {
   "property": "C72",
   "status": "proved",
   "theorems": [
    "C72_text",
    "C72_error",
    "C72_none_refuted"
   ],
   "note": "Full; the _refuted theorem is a finding (for a source that was never stored the text says that records no longer exist in None)."
  },
  {
   "property": "C73",
   "status": "proved",
   "theorems": [
    "C73_same_calls",
    "C73_delete_index",
    "C73_update_index",
    "C73_update_weights",
    "C73_delete_weights",
    "C73_insert_mappings",
    "C73_update_mappings",
    "C73_delete_mappings",
    "C73_silent",
    "C73_warning",
    "C73_updated_refuted",
    "C73_value_mismatch_refuted"
   ],
   "note": "Full for the seven calls with rows; the _refuted theorems are findings (a row of update_index with unchanged labels counts as merged and updated although the record is deleted; a row that describes a stored mapping in every field may be reported as having a mismatched value)."
  },
  {
   "property": "C74",
   "status": "proved",
   "theorems": [
    "C74_same_calls",
    "C74_insert_index",
    "C74_insert_weights",
    "C74_insert_mappings2",
    "C74_logs",
    "C74_uncounted_refuted"
   ],
   "note": "Full; the _refuted theorem is a finding (a row of insert_index for existing labels that loads nothing is counted nowhere, so the logged numbers do not add up to the number of rows)."
  },
  {
   "property": "C75",
   "status": "proved",
   "theorems": [
    "C75_all",
    "C75_left_out",
    "C75_no_header",
    "C75_unbound",
    "C75_damaged",
    "C75_header_refuted"
   ],
   "note": "Full; the _refuted theorem is a finding (header=False makes select_quantities_without_index and select_unmatched_quantities fail)."
  }
 ]
}